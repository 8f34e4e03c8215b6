(** Generated by tools/genprops.py from TableNFinal.v; only statements,
    each closed by the lemma of the same name with suffix _pf. *)
From Verif Require Import TableNSpec TableNFinal.

Theorem C12_tableN_is_a_map_over_the_interval :
  forall (L : Type) (c : tn_cfg) (start end_ : N) (r : tableN L) (os : list (top L)),
    c ∈ tn_packages -> start <= end_ < 2 ^ tn_w c -> tn_reachable c start end_ r ->
    forallb tn_single os = true -> forallb top_uint64 os = true ->
    snd (tn_run r os) = snd (tn_spec_run start end_ (tn_claimed r) os) /\
    tn_claimed (fst (tn_run r os)) = fst (tn_spec_run start end_ (tn_claimed r) os).
Proof. exact C12_tableN_is_a_map_over_the_interval_pf. Qed.
Print Assumptions C12_tableN_is_a_map_over_the_interval.

Definition ex16 : tableN N :=
  fst (tn_run (tn_new cfg_table16 1000 1007) [TClaim 1003 3; TClaimFree 0; TUpdate 1003 4]).
Example C12_example :
  (cfg_table16 ∈ tn_packages) /\ (1000 <= 1007 < 2 ^ tn_w cfg_table16) /\
  tn_reachable cfg_table16 1000 1007 ex16 /\
  snd (tn_run ex16 [TClaim 1003 9; TClaim 1008 9; TClaim 1001 1; TRelease 1003; THas 1003; TSize; TUpdate 1005 1; TClaim 66536 1])
  = [TRUnit (Err EAlreadyClaimed); TRUnit (Err EOutsideRange); TRUnit (Ok tt); TRUnit (Ok tt);
     TRBool false; TRInt 2; TRUnit (Err ENotCreated); TRUnit (Err EOutsideRange)].
Proof.
  split; [left|]. split; [split; [discriminate|reflexivity]|].
  split; [eexists; split; [|reflexivity]; reflexivity|]. vm_compute. reflexivity.
Qed.

(** Get succeeds exactly on claimed ids and then reports the labels last written. *)
Theorem C12_get_reports_the_labels :
  forall (L : Type) (c : tn_cfg) (start end_ : N) (r : tableN L) (id : N),
    c ∈ tn_packages -> start <= end_ < 2 ^ tn_w c -> tn_reachable c start end_ r -> id < 2 ^ 64 ->
    match tn_claimed r !! id with
    | Some l => exists e, snd (tn_step r (TGet id)) = TREntry (Ok e) /\ te_labels e = l
    | None => exists x, snd (tn_step r (TGet id)) = TREntry (Err x)
    end.
Proof. exact C12_get_reports_the_labels_pf. Qed.
Print Assumptions C12_get_reports_the_labels.

Example C12_get_example : tn_claimed ex16 !! 1003 = Some 4 /\ tn_claimed ex16 !! 1001 = None.
Proof. split; reflexivity. Qed.

(** Every interval that is not the whole range of the width. *)
Theorem C13_claim_free_takes_lowest_partial :
  forall (L : Type) (c : tn_cfg) (start end_ : N) (r : tableN L) (l : L),
    c ∈ tn_packages -> start <= end_ < 2 ^ tn_w c -> end_ - start + 1 < 2 ^ tn_w c ->
    tn_reachable c start end_ r ->
    (exists id r', tn_lowest start end_ (tn_claimed r) id /\
       tn_step r TFindFree = (r, TRId (Ok id)) /\
       tn_step r (TClaimFree l) = (r', TREntry (Ok (TEntry id (tn_idlen c) l))) /\
       tn_claimed r' = <[id := l]> (tn_claimed r)) \/
    ((forall id, ~ tn_unclaimed start end_ (tn_claimed r) id) /\
       tn_step r TFindFree = (r, TRId (Err ENoFree)) /\
       tn_step r (TClaimFree l) = (r, TREntry (Err ENoFree))).
Proof. exact C13_claim_free_takes_lowest_partial_pf. Qed.
Print Assumptions C13_claim_free_takes_lowest_partial.

Example C13_example :
  snd (tn_step ex16 (TClaimFree 7)) = TREntry (Ok (TEntry 1001 16 7)) /\
  snd (tn_step (fst (tn_run (tn_new cfg_table64 (2 ^ 64 - 1) (2 ^ 64 - 1)) [TClaim (2 ^ 64 - 1) 1])) (TClaimFree 7))
    = TREntry (Err ENoFree).
Proof. split; vm_compute; reflexivity. Qed.

(** The whole range of the width: end-start+1 wraps to 0 and no id is ever
    considered free. *)
Theorem C13_full_range_never_free :
  forall (L : Type) (c : tn_cfg) (start end_ : N) (r : tableN L) (l : L),
    c ∈ tn_packages -> start <= end_ < 2 ^ tn_w c -> end_ - start + 1 = 2 ^ tn_w c ->
    tn_reachable c start end_ r ->
    tn_step r TFindFree = (r, TRId (Err ENoFree)) /\
    tn_step r (TClaimFree l) = (r, TREntry (Err ENoFree)).
Proof. exact C13_full_range_never_free_pf. Qed.
Print Assumptions C13_full_range_never_free.

Example C13_full_example :
  0 <= 65535 < 2 ^ tn_w cfg_table16 /\ 65535 - 0 + 1 = 2 ^ tn_w cfg_table16 /\
  tn_reachable cfg_table16 0 65535 (tn_new cfg_table16 0 65535 : tableN N).
Proof. split; [split; [discriminate|reflexivity]|]. split; [reflexivity|]. exists []. split; reflexivity. Qed.

Theorem C13_claim_free_refuted :
  forall c, c ∈ tn_packages ->
  exists (start end_ : N) (r : tableN unit) (id : N),
    start <= end_ < 2 ^ tn_w c /\ tn_reachable c start end_ r /\
    tn_unclaimed start end_ (tn_claimed r) id /\
    tn_step r (TClaimFree tt) = (r, TREntry (Err ENoFree)) /\
    snd (tn_step r (TClaim id tt)) = TRUnit (Ok tt).
Proof. exact C13_claim_free_refuted_pf. Qed.
Print Assumptions C13_claim_free_refuted.

(** Every package has a full range: here all 65536 ids of table16. *)
Example C13_refuted_example :
  snd (tn_run (tn_new cfg_table16 0 65535) [TClaimFree 1; TIsFree 7; TClaim 7 2; TClaimFree 3]) =
    [TREntry (Err ENoFree); TRBool true; TRUnit (Ok tt); TREntry (Err ENoFree)].
Proof. vm_compute. reflexivity. Qed.

(** GetAll: one entry per claimed id in ascending order, with the external id
    and the current labels; GetByLabel: the matching entries of that list. *)
Theorem C14_get_all_reports_external_ids :
  forall (L : Type) (c : tn_cfg) (start end_ : N) (r : tableN L) (sel : L -> bool),
    c ∈ tn_packages -> start <= end_ < 2 ^ tn_w c -> tn_reachable c start end_ r ->
    (end_ - start + 1 = 2 ^ 64 -> N.of_nat (size (tn_claimed r)) < 2 ^ 64) ->
    exists es,
      tn_step r TGetAll = (r, TREntries (Ok es)) /\
      ascending (map te_id es) /\
      (forall id l, tn_claimed r !! id = Some l <-> TEntry id (tn_outlen c) l ∈ es) /\
      (forall e, e ∈ es -> te_len e = tn_outlen c) /\
      tn_step r (TGetByLabel sel) = (r, TREntries (Ok (List.filter (fun e => sel (te_labels e)) es))).
Proof. exact C14_get_all_reports_external_ids_pf. Qed.
Print Assumptions C14_get_all_reports_external_ids.

Example C14_example :
  snd (tn_step ex16 TGetAll) = TREntries (Ok [TEntry 1000 32 0; TEntry 1003 32 4]) /\
  snd (tn_step ex16 (TGetByLabel (N.leb 2))) = TREntries (Ok [TEntry 1003 32 4]).
Proof. split; vm_compute; reflexivity. Qed.

(** The id of the entry returned by Get is the offset from start ... *)
Theorem C15_get_returns_the_offset :
  forall (L : Type) (c : tn_cfg) (start end_ : N) (r : tableN L) (id : N) (e : tentry L),
    c ∈ tn_packages -> start <= end_ < 2 ^ tn_w c -> tn_reachable c start end_ r -> id < 2 ^ 64 ->
    snd (tn_step r (TGet id)) = TREntry (Ok e) ->
    te_id e = id - start /\ te_len e = tn_idlen c /\ tn_claimed r !! id = Some (te_labels e).
Proof. exact C15_get_returns_the_offset_pf. Qed.
Print Assumptions C15_get_returns_the_offset.

Example C15_example : snd (tn_step ex16 (TGet 1003)) = TREntry (Ok (TEntry 3 16 4)).
Proof. reflexivity. Qed.

(** ... so C15 holds for tables that start at 0 ... *)
Theorem C15_get_returns_the_id_partial :
  forall (L : Type) (c : tn_cfg) (end_ : N) (r : tableN L) (id : N) (e : tentry L),
    c ∈ tn_packages -> end_ < 2 ^ tn_w c -> tn_reachable c 0 end_ r -> id < 2 ^ 64 ->
    snd (tn_step r (TGet id)) = TREntry (Ok e) ->
    te_id e = id /\ tn_claimed r !! id = Some (te_labels e).
Proof. exact C15_get_returns_the_id_partial_pf. Qed.
Print Assumptions C15_get_returns_the_id_partial.

Example C15_partial_example :
  snd (tn_step (fst (tn_run (tn_new cfg_table32 0 7) [TClaim 3 4])) (TGet 3)) = TREntry (Ok (TEntry 3 32 4)).
Proof. vm_compute. reflexivity. Qed.

(** ... and for no other table. *)
Theorem C15_get_returns_the_id_refuted :
  forall c start end_, c ∈ tn_packages -> 1 <= start <= end_ -> end_ < 2 ^ tn_w c ->
  exists (r : tableN unit) (e : tentry unit), tn_reachable c start end_ r /\
    snd (tn_step r (TGet start)) = TREntry (Ok e) /\ te_id e <> start.
Proof. exact C15_get_returns_the_id_refuted_pf. Qed.
Print Assumptions C15_get_returns_the_id_refuted.

Example C15_refuted_hypotheses : 1 <= 1000 <= 2000 /\ 2000 < 2 ^ tn_w cfg_table16.
Proof. split; [split; discriminate|reflexivity]. Qed.

Theorem C16_reversed_interval_is_inert :
  forall (L : Type) (c : tn_cfg) (start end_ : N) (r : tableN L) (o : top L),
    c ∈ tn_packages -> end_ < start < 2 ^ tn_w c -> tn_reachable c start end_ r ->
    top_uint64 o = true ->
    refused o (snd (tn_step r o)) /\ tn_claimed (fst (tn_step r o)) = ∅.
Proof. exact C16_reversed_interval_is_inert_pf. Qed.
Print Assumptions C16_reversed_interval_is_inert.

Example C16_example :
  5 < 9 < 2 ^ tn_w cfg_table16 /\
  snd (tn_run (tn_new cfg_table16 65530 65520) [TClaim 65530 1; TClaimFree 2; TFindFree; TSize]) =
    [TRUnit (Err EOutsideRange); TREntry (Err EOutsideRange); TRId (Ok 65530); TRInt 0].
Proof. split; [split; reflexivity|]. vm_compute. reflexivity. Qed.

(** FindFree on such a table nevertheless reports [start] as free (unless
    start = end+1), although ClaimFree can never deliver it. *)
Theorem C16_find_free_reports_start :
  forall (L : Type) (c : tn_cfg) (start end_ : N) (r : tableN L),
    c ∈ tn_packages -> end_ < start < 2 ^ tn_w c -> tn_reachable c start end_ r ->
    tn_step r TFindFree = (r, TRId (if start =? end_ + 1 then Err ENoFree else Ok start)).
Proof. exact C16_find_free_reports_start_pf. Qed.
Print Assumptions C16_find_free_reports_start.

Example C16_start_example :
  snd (tn_step (tn_new cfg_table16 9 8 : tableN N) TFindFree) = TRId (Err ENoFree) /\
  snd (tn_step (tn_new cfg_table16 9 7 : tableN N) TFindFree) = TRId (Ok 9).
Proof. split; vm_compute; reflexivity. Qed.
