(** Generated by tools/genprops.py from ConcFinal.v; only statements,
    each closed by the lemma of the same name with suffix _pf. *)
From Verif Require Import TableConcSpec ConcFinal TableNModel.

(** Every execution of calls of one table is equivalent to the calls of [order] one
    after another: each call occurs at most once; the results are those of the
    sequential program; a call that has returned occurs with its result; calls
    that do not overlap in time keep their order; the table, when no call is
    running, is the one the sequential program ends with. *)
Theorem C50_linearizable :
  forall (T : Type) (d0 : table T) (todo : list (list (op T))) sched s,
    sys_run method (start d0 (map (map direct) todo)) sched = Some s ->
    exists order : list (cid * (op T * out T)),
      NoDup order.*1 /\
      snd (run d0 (log_ops order)) = log_results order /\
      (forall c o r, (c, (o, r)) ∈ order -> call_of todo c = Some o /\ EStart c ∈ sy_hist s) /\
      (forall c r, EEnd c r ∈ sy_hist s -> exists o, (c, (o, r)) ∈ order) /\
      (forall c c' i j x x', precedes (sy_hist s) c c' ->
         order !! i = Some (c, x) -> order !! j = Some (c', x') -> (i < j)%nat) /\
      (quiet s -> sy_data s = fst (run d0 (log_ops order))) /\
      (finished s -> forall c o, call_of todo c = Some o -> exists r, EEnd c r ∈ sy_hist s).
Proof. exact C50_linearizable_pf. Qed.
Print Assumptions C50_linearizable.

(** A schedule that lets the goroutines take turns, as far as they can go on. *)
Fixpoint turns {D R Op A : Type} (m : Op -> prog D R) (fuel n i : nat) (s : sys D R Op A) : list nat :=
  match fuel with
  | O => []
  | S fuel' =>
      let j := Nat.modulo (S i) n in
      match sys_step m s i with
      | Some s' => i :: turns m fuel' n j s'
      | None => turns m fuel' n j s
      end
  end.
Definition hist_of {D R Op A : Type} (m : Op -> prog D R) (s : sys D R Op A) (sched : list nat) : option (list (event A)) :=
  option_map sy_hist (sys_run m s sched).
Definition ex_idx : sys (table N) (out N) (op N) (out N) :=
  start (new_table 3) (map (map direct) [[OClaim 1 7; OGet 1]; [OGet 1; OClaim 1 8]]).
(** The two first calls overlap, and so do the two last. *)
Example C50_example : hist_of method ex_idx (turns method 60 2 0 ex_idx) =
  Some [EStart (0, 0)%nat; EStart (1, 0)%nat; EEnd (0, 0)%nat (RUnit (Ok tt)); EStart (0, 1)%nat;
        EEnd (1, 0)%nat (REntry (Ok (NewEntry 1 7))); EStart (1, 1)%nat;
        EEnd (0, 1)%nat (REntry (Ok (NewEntry 1 7))); EEnd (1, 1)%nat (RUnit (Err EExists))].
Proof. vm_compute. reflexivity. Qed.

(** GetAll locks for reading twice; a writer that arrives in between waits for
    the first read lock to be released, and the second waits for the writer. *)
Theorem C51_get_all_deadlocks_refuted :
  forall (T : Type) (size id : N) (x : T),
  exists sched s,
    sys_run method (start (new_table size) (map (map direct) [[OGetAll]; [OClaim id x]])) sched = Some s /\
    (forall i, sys_step method s i = None) /\
    (forall c r, EEnd c r ∉ sy_hist s).
Proof. exact C51_get_all_deadlocks_refuted_pf. Qed.
Print Assumptions C51_get_all_deadlocks_refuted.

(** The GetAll holds the lock for reading, the Claim waits, and the GetAll asks for
    the lock again. *)
Example C51_deadlock_example :
  let s0 : sys (table N) (out N) (op N) (out N) := start (new_table 3) (map (map direct) [[OGetAll]; [OClaim 1 7]]) in
  exists s, sys_run method s0 (turns method 60 2 0 s0) = Some s /\ (forall i, sys_step method s i = None) /\
    sy_hist s = [EStart (0, 0)%nat; EStart (1, 0)%nat].
Proof. eexists. split; [vm_compute; reflexivity|]. split; [|reflexivity]. intros [|[|[|i]]]; reflexivity. Qed.

(** As long as GetAll is not called, or only methods that do not write, no
    execution gets stuck before every call has returned; and no execution of any
    calls goes on forever. *)
Theorem C51_every_call_returns_partial :
  forall (T : Type) (d0 : table T) (todo : list (list (op T))) sched s,
    (forall c o, call_of todo c = Some o -> nests o = false) \/
    (forall c o, call_of todo c = Some o -> writes_table o = false) ->
    sys_run method (start d0 (map (map direct) todo)) sched = Some s ->
    (forall i, sys_step method s i = None) ->
    forall c o, call_of todo c = Some o -> exists r, EEnd c r ∈ sy_hist s.
Proof. exact C51_every_call_returns_partial_pf. Qed.
Print Assumptions C51_every_call_returns_partial.

Example C51_example :
  let todo := [[OClaim 1 7; OGet 1]; [OGet 1; OClaim 1 8]] in
  (forall c o, call_of todo c = Some o -> nests o = false) /\
  exists s, sys_run method ex_idx (turns method 60 2 0 ex_idx) = Some s /\ (forall i, sys_step method s i = None).
Proof.
  split.
  - intros [[|[|i]] [|[|j]]] o H; cbv in H; try discriminate H; injection H as <-; reflexivity.
  - eexists. split; [vm_compute; reflexivity|]. intros [|[|[|i]]]; reflexivity.
Qed.

Theorem C51_no_endless_execution :
  forall (T A : Type) (f : nat -> sys (table T) (out T) (op T) A),
    ~ (forall n, exists i, sys_step method (f n) i = Some (f (S n))).
Proof. exact C51_no_endless_execution_pf. Qed.
Print Assumptions C51_no_endless_execution.

(** An execution goes on for a while, and then no goroutine has a step. *)
Example C51_ends_example : length (turns method 60 2 0 ex_idx) = length (turns method 600 2 0 ex_idx) /\ (20 <= length (turns method 60 2 0 ex_idx))%nat.
Proof. split; [vm_compute; reflexivity|]. vm_compute. lia. Qed.

(** No two calls claim the same id, whatever else happens except Release. *)
Theorem C52_claimed_once :
  forall (L : Type) (c : tn_cfg) (a b : N) (r : tableN L) (todo : list (list (top L))) sched s,
    c ∈ tn_packages -> a <= b < 2 ^ tn_w c -> tn_reachable c a b r ->
    (forall k o, call_of todo k = Some o -> t_releases o = false) ->
    sys_run method (tn_system r todo) sched = Some s ->
    forall k k' o o' x x' id l l',
      call_of todo k = Some o -> EEnd k x ∈ sy_hist s -> claims o x = Some (id, l) ->
      call_of todo k' = Some o' -> EEnd k' x' ∈ sy_hist s -> claims o' x' = Some (id, l') -> k = k'.
Proof. exact C52_claimed_once_pf. Qed.
Print Assumptions C52_claimed_once.

Definition ex_tn :=
  tn_system (tn_new cfg_table16 0 1) [[TClaimFree 1; TGet 1]; [TClaim 1 2; TGetByLabel (N.eqb 2)]].
Definition ex_tn2 :=
  tn_system (tn_new cfg_table16 0 1) [[TClaimFree 1]; [TClaimFree 2]].
(** Two ClaimFree at the same time: both look for a free id and find 0, one gets it. *)
Example C52_example : hist_of method ex_tn2 (turns method 200 2 0 ex_tn2) =
  Some [EStart (0, 0)%nat; EStart (1, 0)%nat; EEnd (0, 0)%nat (TREntry (Ok (TEntry 0 16 1)));
        EEnd (1, 0)%nat (TREntry (Err EExists))].
Proof. vm_compute. reflexivity. Qed.

(** Without Release and Update, the labels of a claim stay: once no call is
    running, the table has them, and every Get that starts after the claim has
    returned returns them. *)
Theorem C52_labels_kept :
  forall (L : Type) (c : tn_cfg) (a b : N) (r : tableN L) (todo : list (list (top L))) sched s,
    c ∈ tn_packages -> a <= b < 2 ^ tn_w c -> tn_reachable c a b r ->
    (forall k o, call_of todo k = Some o -> t_releases o = false /\ t_updates o = false /\ top_uint64 o = true) ->
    sys_run method (tn_system r todo) sched = Some s ->
    forall k o x id l,
      call_of todo k = Some o -> EEnd k x ∈ sy_hist s -> claims o x = Some (id, l) ->
      (quiet s -> tn_claimed (tn_with r (sy_data s)) !! id = Some l) /\
      (forall k' x', precedes (sy_hist s) k k' -> call_of todo k' = Some (TGet id) -> EEnd k' x' ∈ sy_hist s ->
         exists e, x' = TREntry (Ok e) /\ te_labels e = l).
Proof. exact C52_labels_kept_pf. Qed.
Print Assumptions C52_labels_kept.

Example C52_labels_example : hist_of method ex_tn (turns method 200 2 0 ex_tn) =
  Some [EStart (0, 0)%nat; EStart (1, 0)%nat; EEnd (1, 0)%nat (TRUnit (Ok tt)); EStart (1, 1)%nat;
        EEnd (0, 0)%nat (TREntry (Ok (TEntry 0 16 1))); EStart (0, 1)%nat;
        EEnd (1, 1)%nat (TREntries (Ok [TEntry 1 32 2]));
        EEnd (0, 1)%nat (TREntry (Ok (TEntry 1 16 2)))] /\
  precedes [EStart (0, 0)%nat; EStart (1, 0)%nat; EEnd (1, 0)%nat (TRUnit (Ok tt)); EStart (1, 1)%nat;
        EEnd (0, 0)%nat (TREntry (Ok (TEntry 0 16 1))); EStart (0, 1)%nat;
        EEnd (1, 1)%nat (TREntries (Ok [TEntry 1 32 2]));
        EEnd (0, 1)%nat (TREntry (Ok (TEntry 1 16 2)))] (1, 0)%nat (0, 1)%nat.
Proof.
  split; [vm_compute; reflexivity|].
  exists 2%nat, 5%nat, (TRUnit (Ok tt)). repeat split; auto with lia.
Qed.

(** A ClaimFree fails although an id is free at every moment. *)
Theorem C53_claim_free_fails_refuted :
  forall (c : tn_cfg), c ∈ tn_packages ->
  exists (todo : list (list (top unit))) sched s k e,
    sys_run method (tn_system (tn_new c 0 1) todo) sched = Some s /\
    call_of todo k = Some (TClaimFree tt) /\ EEnd k (TREntry (Err e)) ∈ sy_hist s /\
    forall n s', sys_run method (tn_system (tn_new c 0 1) todo) (take n sched) = Some s' ->
      tn_unclaimed 0 1 (tn_claimed (tn_with (tn_new c 0 1) (sy_data s'))) 1.
Proof. exact C53_claim_free_fails_refuted_pf. Qed.
Print Assumptions C53_claim_free_fails_refuted.

(** Id 1 is never claimed, and a ClaimFree fails. *)
Example C53_fails_example :
  let s0 := tn_system (tn_new cfg_table32 0 1) [[TClaimFree 1]; [TClaimFree 2]] in
  (exists s, sys_run method s0 (turns method 200 2 0 s0) = Some s /\ tn_claimed (tn_with (tn_new cfg_table32 0 1) (sy_data s)) !! 1 = None) /\
  hist_of method s0 (turns method 200 2 0 s0) =
  Some [EStart (0, 0)%nat; EStart (1, 0)%nat; EEnd (0, 0)%nat (TREntry (Ok (TEntry 0 32 1)));
        EEnd (1, 0)%nat (TREntry (Err EExists))].
Proof. split; [|vm_compute; reflexivity]. eexists. split; [vm_compute; reflexivity|]. vm_compute. reflexivity. Qed.

(** A ClaimFree fails only if at some moment during the call no id was free, or
    if the id it has found free has been claimed by another call before it could
    claim it.  The table is not one over the whole range of the package. *)
Theorem C53_why_claim_free_fails_partial :
  forall (L : Type) (c : tn_cfg) (a b : N) (r : tableN L) (todo : list (list (top L))) sched s,
    c ∈ tn_packages -> a <= b < 2 ^ tn_w c -> b - a + 1 < 2 ^ tn_w c -> tn_reachable c a b r ->
    sys_run method (tn_system r todo) sched = Some s ->
    forall k l e, call_of todo k = Some (TClaimFree l) -> EEnd k (TREntry (Err e)) ∈ sy_hist s ->
    exists n s', sys_run method (tn_system r todo) (take n sched) = Some s' /\ during (sy_hist s') k /\
      ((forall id, ~ tn_unclaimed a b (tn_claimed (tn_with r (sy_data s'))) id) \/
       exists m s'' id, (n < m < length sched)%nat /\
         sys_run method (tn_system r todo) (take m sched) = Some s'' /\ during (sy_hist s'') k /\
         tn_unclaimed a b (tn_claimed (tn_with r (sy_data s'))) id /\
         is_Some (tn_claimed (tn_with r (sy_data s'')) !! id)).
Proof. exact C53_why_claim_free_fails_partial_pf. Qed.
Print Assumptions C53_why_claim_free_fails_partial.

(** One id free, two callers. *)
Definition ex_tn3 :=
  tn_system (tn_new cfg_table16 5 5) [[TClaimFree 1]; [TClaimFree 2; TClaimFree 3]].
Example C53_example : hist_of method ex_tn3 (turns method 200 2 0 ex_tn3) =
  Some [EStart (0, 0)%nat; EStart (1, 0)%nat; EEnd (0, 0)%nat (TREntry (Ok (TEntry 5 16 1)));
        EEnd (1, 0)%nat (TREntry (Err EExists)); EStart (1, 1)%nat; EEnd (1, 1)%nat (TREntry (Err ENoFree))].
Proof. vm_compute. reflexivity. Qed.

(** A table over the whole range of the package: every ClaimFree fails, whatever
    the other goroutines do. *)
Theorem C53_full_range_always_fails :
  forall (L : Type) (c : tn_cfg) (a b : N) (r : tableN L) (todo : list (list (top L))) sched s,
    c ∈ tn_packages -> a <= b < 2 ^ tn_w c -> b - a + 1 = 2 ^ tn_w c -> tn_reachable c a b r ->
    sys_run method (tn_system r todo) sched = Some s ->
    forall k l x, call_of todo k = Some (TClaimFree l) -> EEnd k x ∈ sy_hist s -> x = TREntry (Err ENoFree).
Proof. exact C53_full_range_always_fails_pf. Qed.
Print Assumptions C53_full_range_always_fails.

(** All 65536 ids of table16: the table is empty, and both ClaimFree calls fail. *)
Definition ex_tn3f :=
  tn_system (tn_new cfg_table16 0 65535) [[TClaimFree 1; TClaim 7 1]; [TClaimFree 2]].
Example C53_full_example : tn_reachable cfg_table16 0 65535 (tn_new (L:=N) cfg_table16 0 65535) /\
  hist_of method ex_tn3f (turns method 200 2 0 ex_tn3f) =
  Some [EStart (0, 0)%nat; EStart (1, 0)%nat; EEnd (0, 0)%nat (TREntry (Err ENoFree));
        EEnd (1, 0)%nat (TREntry (Err ENoFree)); EStart (0, 1)%nat; EEnd (0, 1)%nat (TRUnit (Ok tt))].
Proof. split; [exists []; done|]. vm_compute. reflexivity. Qed.

(** A Release between the listing of the keys and the read of an entry. *)
Theorem C55_get_by_label_panics_refuted :
  forall (c : tn_cfg), c ∈ tn_packages ->
  exists (r : tableN unit) sel sched s,
    tn_reachable c 0 1 r /\
    sys_run method (tn_system r [[TGetByLabel sel]; [TRelease 0]]) sched = Some s /\
    EEnd (0, 0)%nat (TREntries Panic) ∈ sy_hist s.
Proof. exact C55_get_by_label_panics_refuted_pf. Qed.
Print Assumptions C55_get_by_label_panics_refuted.

Example C55_panics_example :
  let r := fst (tn_run (tn_new cfg_table32 0 1) [TClaim 0 5]) in
  tn_reachable cfg_table32 0 1 r /\
  hist_of method (tn_system r [[TGetByLabel (N.eqb 5)]; [TRelease 0]]) (replicate 10 0%nat ++ replicate 9 1%nat ++ replicate 3 0%nat) =
  Some [EStart (0, 0)%nat; EStart (1, 0)%nat; EEnd (1, 0)%nat (TRUnit (Ok tt)); EEnd (0, 0)%nat (TREntries Panic)].
Proof. split; [by exists [TClaim 0 5]|vm_compute; reflexivity]. Qed.

Theorem C55_iptable_get_by_label_panics_refuted :
  exists (from to : addr) (r : iptable unit) sel sched s,
    ip_range from to /\ ip_reachable Some from to r /\
    sys_run method (ip_system Some r [[IGetByLabel sel]; [IRelease from]]) sched = Some s /\
    EEnd (0, 0)%nat (IRDatas Panic) ∈ sy_hist s.
Proof. exact C55_iptable_get_by_label_panics_refuted_pf. Qed.
Print Assumptions C55_iptable_get_by_label_panics_refuted.

(** A call that is not a GetByLabel never panics; and no call does if there is
    no Release. A table64 over all ids is covered as long as fewer than 2^64 ids
    are claimed before the calls or by them. *)
Theorem C55_no_panic_partial :
  forall (L : Type) (c : tn_cfg) (a b : N) (r : tableN L) (todo : list (list (top L))) sched s,
    c ∈ tn_packages -> a <= b < 2 ^ tn_w c -> tn_reachable c a b r ->
    b - a + 1 < 2 ^ 64 \/ N.of_nat (size (tn_claimed r) + length (concat todo)) < 2 ^ 64 ->
    sys_run method (tn_system r todo) sched = Some s ->
    forall k o x, call_of todo k = Some o -> EEnd k x ∈ sy_hist s ->
    t_by_label o = false \/ (forall k' o', call_of todo k' = Some o' -> t_releases o' = false) ->
    t_panicked x = false.
Proof. exact C55_no_panic_partial_pf. Qed.
Print Assumptions C55_no_panic_partial.

(** A GetByLabel during claims and an update. *)
Definition ex_tn4 :=
  tn_system (tn_new cfg_table32 0 3) [[TClaim 0 1; TGetByLabel (N.leb 1)]; [TClaim 2 2; TUpdate 0 3]].
Example C55_example : hist_of method ex_tn4 (turns method 200 2 0 ex_tn4) =
  Some [EStart (0, 0)%nat; EStart (1, 0)%nat; EEnd (0, 0)%nat (TRUnit (Ok tt)); EStart (0, 1)%nat;
        EEnd (1, 0)%nat (TRUnit (Ok tt)); EStart (1, 1)%nat; EEnd (1, 1)%nat (TRUnit (Ok tt));
        EEnd (0, 1)%nat (TREntries (Ok [TEntry 0 32 3; TEntry 2 32 2]))].
Proof. vm_compute. reflexivity. Qed.
(** The table of all uint64 ids. *)
Definition ex_tn4w :=
  tn_system (tn_new cfg_table64 0 (2 ^ 64 - 1)) [[TClaim 0 1; TGetByLabel (N.leb 1)]; [TClaim (2 ^ 64 - 1) 2; TUpdate 0 3]].
Example C55_wide_example : hist_of method ex_tn4w (turns method 200 2 0 ex_tn4w) =
  Some [EStart (0, 0)%nat; EStart (1, 0)%nat; EEnd (0, 0)%nat (TRUnit (Ok tt)); EStart (0, 1)%nat;
        EEnd (1, 0)%nat (TRUnit (Ok tt)); EStart (1, 1)%nat; EEnd (1, 1)%nat (TRUnit (Ok tt));
        EEnd (0, 1)%nat (TREntries (Ok [TEntry 0 64 3; TEntry (2 ^ 64 - 1) 64 2]))].
Proof. vm_compute. reflexivity. Qed.
Definition ex_tn4f :=
  tn_system (tn_new cfg_table64 0 (2 ^ 64 - 1)) [[TClaimFree 1; TGetByLabel (N.leb 1)]; [TClaim 7 2]].
Example C55_full_example : hist_of method ex_tn4f (turns method 200 2 0 ex_tn4f) =
  Some [EStart (0, 0)%nat; EStart (1, 0)%nat; EEnd (0, 0)%nat (TREntry (Err ENoFree)); EStart (0, 1)%nat;
        EEnd (1, 0)%nat (TRUnit (Ok tt)); EEnd (0, 1)%nat (TREntries (Ok [TEntry 7 64 2]))].
Proof. vm_compute. reflexivity. Qed.

Theorem C55_iptable_no_panic_partial :
  forall (S D : Type) (parse : S -> option addr) (from to : addr) (r : iptable D) (todo : list (list (iop S D))) sched s,
    ip_range from to -> ip_reachable parse from to r ->
    a_val to - a_val from + 1 < 2 ^ 64 \/ N.of_nat (size (ip_claimed r) + length (concat todo)) < 2 ^ 64 ->
    sys_run method (ip_system parse r todo) sched = Some s ->
    forall k o x, call_of todo k = Some o -> EEnd k x ∈ sy_hist s ->
    i_by_label o = false \/ (forall k' o', call_of todo k' = Some o' -> i_releases o' = false) ->
    i_panicked x = false.
Proof. exact C55_iptable_no_panic_partial_pf. Qed.
Print Assumptions C55_iptable_no_panic_partial.

Definition ex_from : addr := Addr K4 (v4_base + 0x0a0000fa) 0.
Definition ex_to : addr := Addr K4 (v4_base + 0x0a00010a) 0.
Definition ex_ip :=
  ip_system Some (ip_new ex_from ex_to) [[IClaim ex_from 1; IGetByLabel (N.leb 1)]; [IClaim ex_to 2; IClaim ex_from 3]].
Example C55_ip_example : ip_range ex_from ex_to /\ hist_of method ex_ip (turns method 200 2 0 ex_ip) =
  Some [EStart (0, 0)%nat; EStart (1, 0)%nat; EEnd (0, 0)%nat (IRUnit (Ok tt)); EStart (0, 1)%nat;
        EEnd (1, 0)%nat (IRUnit (Ok tt)); EStart (1, 1)%nat; EEnd (0, 1)%nat (IRDatas (Ok [1; 2]));
        EEnd (1, 1)%nat (IRUnit (Err EAlreadyClaimed))].
Proof. split; [vm_compute; repeat split; congruence|]. vm_compute. reflexivity. Qed.
(** 2^80 IPv6 addresses. *)
Definition ex_from6 : addr := Addr K6 0x20010db8000000000000000000000000 0.
Definition ex_to6 : addr := Addr K6 0x20010db80000ffffffffffffffffffff 0.
Definition ex_ip6 :=
  ip_system Some (ip_new ex_from6 ex_to6) [[IClaim ex_from6 1; IGetByLabel (N.leb 1)]; [IClaim ex_to6 2; IClaim ex_from6 3]].
Example C55_ip6_example : ip_range ex_from6 ex_to6 /\ exists h, hist_of method ex_ip6 (turns method 200 2 0 ex_ip6) =
  Some (h ++ [EEnd (0, 1)%nat (IRDatas (Ok [1; 2])); EEnd (1, 1)%nat (IRUnit (Err EAlreadyClaimed))]).
Proof. split; [vm_compute; repeat split; congruence|]. eexists [_; _; _; _; _; _]. vm_compute. reflexivity. Qed.

(** The calls of an idxtable never race. *)
Theorem C62_idxtable_race_free :
  forall (T : Type) (d0 : table T) (todo : list (list (op T))) sched s,
    sys_run method (start d0 (map (map direct) todo)) sched = Some s -> ~ racing s.
Proof. exact C62_idxtable_race_free_pf. Qed.
Print Assumptions C62_idxtable_race_free.

Example C62_example : exists s, sys_run method ex_idx (turns method 60 2 0 ex_idx) = Some s.
Proof. eexists. vm_compute. reflexivity. Qed.

(** An iterator of an idxtable does race: Value reads the map while another call writes it. *)
Theorem C62_iterator_race_refuted :
  exists (d : table unit) sched s,
    reachable 1 d /\
    sys_run method (start d [[iterate_values]; [direct (ORelease 0)]]) sched = Some s /\ racing s.
Proof. exact C62_iterator_race_refuted_pf. Qed.
Print Assumptions C62_iterator_race_refuted.

(** GetByLabel of table16/32/64 and of iptable reads the map while another call writes it. *)
Theorem C62_get_by_label_race_refuted :
  forall (c : tn_cfg), c ∈ tn_packages ->
  exists (r : tableN unit) sel sched s,
    tn_reachable c 0 1 r /\
    sys_run method (tn_system r [[TGetByLabel sel]; [TRelease 0]]) sched = Some s /\ racing s.
Proof. exact C62_get_by_label_race_refuted_pf. Qed.
Print Assumptions C62_get_by_label_race_refuted.

Theorem C62_iptable_get_by_label_race_refuted :
  exists (from to : addr) (r : iptable unit) sel sched s,
    ip_range from to /\ ip_reachable Some from to r /\
    sys_run method (ip_system Some r [[IGetByLabel sel]; [IRelease from]]) sched = Some s /\ racing s.
Proof. exact C62_iptable_get_by_label_race_refuted_pf. Qed.
Print Assumptions C62_iptable_get_by_label_race_refuted.

(** Without GetByLabel, or without calls that write, there is no race. *)
Theorem C62_tables_race_free_partial :
  forall (L : Type) (r : tableN L) (todo : list (list (top L))) sched s,
    (forall k o, call_of todo k = Some o -> t_by_label o = false) \/
    (forall k o, call_of todo k = Some o -> t_writes o = false) ->
    sys_run method (tn_system r todo) sched = Some s -> ~ racing s.
Proof. exact C62_tables_race_free_partial_pf. Qed.
Print Assumptions C62_tables_race_free_partial.

Example C62_tables_example : exists s,
  sys_run method ex_tn2 (turns method 200 2 0 ex_tn2) = Some s /\
  forall k o, call_of [[TClaimFree 1]; [TClaimFree 2]] k = Some o -> t_by_label o = false.
Proof.
  eexists. split; [vm_compute; reflexivity|].
  intros [[|[|i]] [|j]] o H; cbv in H; try discriminate H; injection H as <-; reflexivity.
Qed.

Theorem C62_iptable_race_free_partial :
  forall (S D : Type) (parse : S -> option addr) (r : iptable D) (todo : list (list (iop S D))) sched s,
    (forall k o, call_of todo k = Some o -> i_by_label o = false) \/
    (forall k o, call_of todo k = Some o -> i_writes o = false) ->
    sys_run method (ip_system parse r todo) sched = Some s -> ~ racing s.
Proof. exact C62_iptable_race_free_partial_pf. Qed.
Print Assumptions C62_iptable_race_free_partial.

(** Addresses as their own text. *)
Definition ex_a (n : N) : addr := Addr K4 (v4_base + n) 0.
Definition ex_ipcalls : list (list (iop addr N)) := [[IClaim (ex_a 1) 1; IUpdate (ex_a 2) 4]; [IClaim (ex_a 1) 2; IGet (ex_a 1); IHas (ex_a 9)]].
Definition ex_ip3 := ip_system Some (ip_new (D := N) (ex_a 0) (ex_a 5)) ex_ipcalls.
Example C62_iptable_example :
  (forall k o, call_of ex_ipcalls k = Some o -> i_by_label o = false /\ i_gets_all o = false /\ i_composite o = false) /\
  hist_of method ex_ip3 (turns method 200 2 0 ex_ip3) =
  Some [EStart (0, 0)%nat; EStart (1, 0)%nat; EEnd (0, 0)%nat (IRUnit (Ok tt)); EStart (0, 1)%nat;
        EEnd (1, 0)%nat (IRUnit (Err EExists)); EStart (1, 1)%nat; EEnd (0, 1)%nat (IRUnit (Err ENotClaimed));
        EEnd (1, 1)%nat (IRData (Ok 1)); EStart (1, 2)%nat; EEnd (1, 2)%nat (IRBool false)].
Proof.
  split; [|vm_compute; reflexivity].
  intros [[|[|i]] [|[|[|j]]]] o H; cbv in H; try discriminate H; injection H as <-; repeat split.
Qed.

(** A call of which no other call is going on does what the call does in the
    sequential model. *)
Theorem C64_tables_call_alone :
  forall (L : Type) (r : tableN L) (o : top L),
    let a := client_alone method (tn_call r o) (tn_table r) in
    (tn_with r (fst a), snd a) = tn_step r o.
Proof. exact C64_tables_call_alone_pf. Qed.
Print Assumptions C64_tables_call_alone.

Example C64_tables_example :
  snd (client_alone method (tn_call (tn_new cfg_table32 10 20) (TClaimFree 4)) (tn_table (tn_new cfg_table32 10 20))) = TREntry (Ok (TEntry 10 32 4)).
Proof. vm_compute. reflexivity. Qed.

Theorem C64_iptable_call_alone :
  forall (S D : Type) (parse : S -> option addr) (r : iptable D) (o : iop S D),
    let a := client_alone method (ip_call parse r o) (ip_table r) in
    (ip_with r (fst a), snd a) = ip_step parse r o.
Proof. exact C64_iptable_call_alone_pf. Qed.
Print Assumptions C64_iptable_call_alone.

Example C64_iptable_example :
  snd (client_alone method (ip_call Some (ip_new (D := N) (ex_a 3) (ex_a 5)) IFindFree) (ip_table (ip_new (D := N) (ex_a 3) (ex_a 5)))) = IRAddr (Ok (ex_a 3)).
Proof. vm_compute. reflexivity. Qed.

(** A GetAll and a Release on any table: the writer announces itself between the
    two read locks of the GetAll of idxtable. *)
Theorem C65_get_all_deadlocks_refuted :
  forall (L : Type) (r : tableN L) (id : N),
  tn_validate r id = Ok tt ->
  exists sched s,
    sys_run method (tn_system r [[TGetAll]; [TRelease id]]) sched = Some s /\
    (forall i, sys_step method s i = None) /\ (forall k x, EEnd k x ∉ sy_hist s).
Proof. exact C65_get_all_deadlocks_refuted_pf. Qed.
Print Assumptions C65_get_all_deadlocks_refuted.

Example C65_refuted_example : tn_validate (tn_new (L := N) cfg_table32 10 20) 15 = Ok tt.
Proof. vm_compute. reflexivity. Qed.

Theorem C65_iptable_get_all_deadlocks_refuted :
  forall (S D : Type) (parse : S -> option addr) (r : iptable D) (x : S) (a : addr),
  ip_validate parse r x = Ok a ->
  exists sched s,
    sys_run method (ip_system parse r [[IGetAll]; [IRelease x]]) sched = Some s /\
    (forall i, sys_step method s i = None) /\ (forall k y, EEnd k y ∉ sy_hist s).
Proof. exact C65_iptable_get_all_deadlocks_refuted_pf. Qed.
Print Assumptions C65_iptable_get_all_deadlocks_refuted.

Example C65_iptable_refuted_example : ip_validate Some (ip_new (D := N) (ex_a 0) (ex_a 5)) (ex_a 2) = Ok (ex_a 2).
Proof. vm_compute. reflexivity. Qed.

(** Without GetAll, or without calls that write, no execution gets stuck before
    every call has returned. *)
Theorem C65_tables_every_call_returns_partial :
  forall (L : Type) (r : tableN L) (todo : list (list (top L))) sched s,
    (forall k o, call_of todo k = Some o -> t_gets_all o = false) \/
    (forall k o, call_of todo k = Some o -> t_writes o = false) ->
    sys_run method (tn_system r todo) sched = Some s -> (forall i, sys_step method s i = None) ->
    forall k o, call_of todo k = Some o -> exists x, EEnd k x ∈ sy_hist s.
Proof. exact C65_tables_every_call_returns_partial_pf. Qed.
Print Assumptions C65_tables_every_call_returns_partial.

Example C65_example : exists s,
  sys_run method ex_tn2 (turns method 200 2 0 ex_tn2) = Some s /\ (forall i, sys_step method s i = None) /\
  forall k o, call_of [[TClaimFree 1]; [TClaimFree 2]] k = Some o -> t_gets_all o = false.
Proof.
  eexists. split; [vm_compute; reflexivity|]. split; [intros [|[|[|i]]]; reflexivity|].
  intros [[|[|i]] [|j]] o H; cbv in H; try discriminate H; injection H as <-; reflexivity.
Qed.

Theorem C65_iptable_every_call_returns_partial :
  forall (S D : Type) (parse : S -> option addr) (r : iptable D) (todo : list (list (iop S D))) sched s,
    (forall k o, call_of todo k = Some o -> i_gets_all o = false) \/
    (forall k o, call_of todo k = Some o -> i_writes o = false) ->
    sys_run method (ip_system parse r todo) sched = Some s -> (forall i, sys_step method s i = None) ->
    forall k o, call_of todo k = Some o -> exists x, EEnd k x ∈ sy_hist s.
Proof. exact C65_iptable_every_call_returns_partial_pf. Qed.
Print Assumptions C65_iptable_every_call_returns_partial.

Example C65_iptable_example : exists s,
  sys_run method ex_ip3 (turns method 200 2 0 ex_ip3) = Some s /\ (forall i, sys_step method s i = None) /\
  forall k o, call_of ex_ipcalls k = Some o -> i_gets_all o = false.
Proof.
  eexists. split; [vm_compute; reflexivity|]. split; [intros [|[|[|i]]]; reflexivity|].
  intros [[|[|i]] [|[|[|j]]]] o H; cbv in H; try discriminate H; injection H as <-; reflexivity.
Qed.

(** Every execution of calls of one table, ClaimFree and GetByLabel left out, is
    equivalent to the calls of [order] one after another: the results are those
    of the sequential program, except that it may be another error; a call that
    has returned occurs with its result, unless it does nothing and has the same
    result on every table (an id outside the range); calls that do not overlap in
    time keep their order; the table, when no call is running, is the one the
    sequential program ends with. *)
Theorem C66_tables_linearizable :
  forall (L : Type) (r : tableN L) (todo : list (list (top L))) sched s,
    (forall k o, call_of todo k = Some o -> t_composite o = false) ->
    sys_run method (tn_system r todo) sched = Some s ->
    exists order : list (cid * (top L * tout L)),
      NoDup order.*1 /\
      Forall2 t_same (log_results order) (snd (tn_run r (log_ops order))) /\
      (forall k o x, (k, (o, x)) ∈ order -> call_of todo k = Some o /\ EStart k ∈ sy_hist s) /\
      (forall k x, EEnd k x ∈ sy_hist s -> exists o, call_of todo k = Some o /\
         ((k, (o, x)) ∈ order \/ forall d, tn_step (tn_with r d) o = (tn_with r d, x))) /\
      (forall k k' i j x x', precedes (sy_hist s) k k' ->
         order !! i = Some (k, x) -> order !! j = Some (k', x') -> (i < j)%nat) /\
      (quiet s -> tn_with r (sy_data s) = fst (tn_run r (log_ops order))).
Proof. exact C66_tables_linearizable_pf. Qed.
Print Assumptions C66_tables_linearizable.

(** Two Claims of one id that overlap: one gets an error of the table underneath,
    which is another than the error of a Claim by itself. *)
Definition ex_tncalls : list (list (top N)) := [[TClaim 11 1; TUpdate 11 3]; [TClaim 11 2; TGet 11; THas 99]].
Definition ex_tn9 := tn_system (tn_new cfg_table32 10 20) ex_tncalls.
Example C66_example :
  (forall k o, call_of ex_tncalls k = Some o -> t_composite o = false) /\
  hist_of method ex_tn9 (turns method 200 2 0 ex_tn9) =
  Some [EStart (0, 0)%nat; EStart (1, 0)%nat; EEnd (0, 0)%nat (TRUnit (Ok tt)); EStart (0, 1)%nat;
        EEnd (1, 0)%nat (TRUnit (Err EExists)); EStart (1, 1)%nat; EEnd (0, 1)%nat (TRUnit (Ok tt));
        EEnd (1, 1)%nat (TREntry (Ok (TEntry 1 32 3))); EStart (1, 2)%nat; EEnd (1, 2)%nat (TRBool false)].
Proof.
  split; [|vm_compute; reflexivity].
  intros [[|[|i]] [|[|[|j]]]] o H; cbv in H; try discriminate H; injection H as <-; reflexivity.
Qed.

Theorem C66_iptable_linearizable :
  forall (S D : Type) (parse : S -> option addr) (r : iptable D) (todo : list (list (iop S D))) sched s,
    (forall k o, call_of todo k = Some o -> i_composite o = false) ->
    sys_run method (ip_system parse r todo) sched = Some s ->
    exists order : list (cid * (iop S D * iout D)),
      NoDup order.*1 /\
      Forall2 i_same (log_results order) (snd (ip_run parse r (log_ops order))) /\
      (forall k o x, (k, (o, x)) ∈ order -> call_of todo k = Some o /\ EStart k ∈ sy_hist s) /\
      (forall k x, EEnd k x ∈ sy_hist s -> exists o, call_of todo k = Some o /\
         ((k, (o, x)) ∈ order \/ forall d, ip_step parse (ip_with r d) o = (ip_with r d, x))) /\
      (forall k k' i j x x', precedes (sy_hist s) k k' ->
         order !! i = Some (k, x) -> order !! j = Some (k', x') -> (i < j)%nat) /\
      (quiet s -> ip_with r (sy_data s) = fst (ip_run parse r (log_ops order))).
Proof. exact C66_iptable_linearizable_pf. Qed.
Print Assumptions C66_iptable_linearizable.

(** The order in which the calls of the two goroutines took effect, and what they
    return in that order. *)
Example C66_iptable_example :
  (forall k o, call_of ex_ipcalls k = Some o -> i_composite o = false) /\
  snd (ip_run Some (ip_new (D := N) (ex_a 0) (ex_a 5)) [IClaim (ex_a 1) 1; IClaim (ex_a 1) 2; IUpdate (ex_a 2) 4; IGet (ex_a 1); IHas (ex_a 9)]) =
  [IRUnit (Ok tt); IRUnit (Err EAlreadyClaimed); IRUnit (Err ENotClaimed); IRData (Ok 1); IRBool false].
Proof.
  split; [|vm_compute; reflexivity].
  intros [[|[|i]] [|[|[|j]]]] o H; cbv in H; try discriminate H; injection H as <-; reflexivity.
Qed.

(** Every execution of calls of one table, ClaimFree included and only GetByLabel
    left out, is equivalent to the calls of [order] one after another, with a
    ClaimFree that returned an entry counted as a Claim of the id of that entry,
    and one that failed although ids were free as nothing ([t_counts]). *)
Theorem C80_tables_with_claim_free :
  forall (L : Type) (r : tableN L) (todo : list (list (top L))) sched s,
    (forall k o, call_of todo k = Some o -> t_by_label o = false) ->
    sys_run method (tn_system r todo) sched = Some s ->
    exists order : list (cid * (top L * tout L)),
      let plain := omap t_counts order.*2 in
      NoDup order.*1 /\
      Forall2 t_same plain.*2 (snd (tn_run r plain.*1)) /\
      (forall k o x, (k, (o, x)) ∈ order -> call_of todo k = Some o /\ EStart k ∈ sy_hist s) /\
      (forall k x, EEnd k x ∈ sy_hist s -> exists o, call_of todo k = Some o /\
         ((k, (o, x)) ∈ order \/ forall d, tn_step (tn_with r d) o = (tn_with r d, x))) /\
      (forall k k' i j x x', precedes (sy_hist s) k k' ->
         order !! i = Some (k, x) -> order !! j = Some (k', x') -> (i < j)%nat) /\
      (quiet s -> tn_with r (sy_data s) = fst (tn_run r plain.*1)).
Proof. exact C80_tables_with_claim_free_pf. Qed.
Print Assumptions C80_tables_with_claim_free.

(** Two ClaimFree that find the same id: one claims it, the other fails. *)
Definition ex_tn10 := tn_system (tn_new cfg_table32 0 1) [[TClaimFree 1]; [TClaimFree 2]].
Example C80_example :
  (forall k o, call_of [[TClaimFree 1]; [TClaimFree 2]] k = Some o -> t_by_label o = false) /\
  hist_of method ex_tn10 (replicate 8 0%nat ++ replicate 22 1%nat ++ replicate 6 0%nat) =
  Some [EStart (0, 0)%nat; EStart (1, 0)%nat; EEnd (1, 0)%nat (TREntry (Ok (TEntry 0 32 2)));
        EEnd (0, 0)%nat (TREntry (Err EAlreadyClaimed))] /\
  omap t_counts [(TClaimFree 2, TREntry (Ok (TEntry 0 32 2))); (TClaimFree 1, TREntry (Err EAlreadyClaimed))]
    = [(TClaim 0 2, TRUnit (Ok tt))].
Proof.
  split; [|split; vm_compute; reflexivity].
  intros [[|[|i]] [|j]] o H; cbv in H; try discriminate H; injection H as <-; reflexivity.
Qed.

(** GetByLabel of table16/32/64 next to other calls: at one moment it lists the
    claimed ids; then it looks them up one after another, each at a later moment
    of its own; the result are the entries found whose labels match, or a panic if
    one of the ids is not claimed any more. *)
Theorem C83_get_by_label_moments :
  forall (L : Type) (c : tn_cfg) (a b : N) (r : tableN L) (todo : list (list (top L))) sched s,
    c ∈ tn_packages -> a <= b < 2 ^ tn_w c -> b - a + 1 < 2 ^ 64 -> tn_reachable c a b r ->
    sys_run method (tn_system r todo) sched = Some s ->
    forall k sel x, call_of todo k = Some (TGetByLabel sel) -> EEnd k x ∈ sy_hist s ->
    exists n m ids, tn_moment r todo sched k n m /\ listing m ids /\
      ((exists ls, looked (tn_moment r todo sched k) n ids (map Some ls) /\
          x = TREntries (Ok (List.filter (fun e => sel (te_labels e)) (zip_with (fun id l => TEntry id (tn_outlen c) l) ids ls)))) \/
       (x = TREntries Panic /\ exists id n' m', id ∈ ids /\ (n <= n')%nat /\ tn_moment r todo sched k n' m' /\ m' !! id = None)).
Proof. exact C83_get_by_label_moments_pf. Qed.
Print Assumptions C83_get_by_label_moments.

(** The second id is updated after the listing, before it is looked up. *)
Definition ex_r83 : tableN N := fst (tn_run (tn_new cfg_table32 10 20) [TClaim 11 1; TClaim 13 2]).
Definition ex_calls83 : list (list (top N)) := [[TGetByLabel (fun l => 2 <=? l)]; [TUpdate 11 7; TUpdate 13 9]].
Definition ex_tn83 := tn_system ex_r83 ex_calls83.
Definition ex_sched83 := replicate 12 0%nat ++ replicate 20 1%nat ++ replicate 2 0%nat.
Example C83_example : tn_reachable cfg_table32 10 20 ex_r83 /\
  hist_of method ex_tn83 ex_sched83 =
  Some [EStart (0, 0)%nat; EStart (1, 0)%nat; EEnd (1, 0)%nat (TRUnit (Ok tt)); EStart (1, 1)%nat; EEnd (1, 1)%nat (TRUnit (Ok tt));
        EEnd (0, 0)%nat (TREntries (Ok [TEntry 13 32 9]))].
Proof. split; [by exists [TClaim 11 1; TClaim 13 2]|vm_compute; reflexivity]. Qed.
(** The panic. *)
Example C83_panic_example :
  hist_of method (tn_system ex_r83 [[TGetByLabel (fun l => 2 <=? l)]; [TRelease 13]]) (replicate 12 0%nat ++ replicate 9 1%nat ++ replicate 2 0%nat) =
  Some [EStart (0, 0)%nat; EStart (1, 0)%nat; EEnd (1, 0)%nat (TRUnit (Ok tt)); EEnd (0, 0)%nat (TREntries Panic)].
Proof. vm_compute. reflexivity. Qed.

(** So each entry it returns matches, and was in the table at some moment during
    the call; and an id that is in the table, with the same matching labels, at all
    moments during the call is among them. *)
Theorem C83_get_by_label_entries :
  forall (L : Type) (c : tn_cfg) (a b : N) (r : tableN L) (todo : list (list (top L))) sched s,
    c ∈ tn_packages -> a <= b < 2 ^ tn_w c -> b - a + 1 < 2 ^ 64 -> tn_reachable c a b r ->
    sys_run method (tn_system r todo) sched = Some s ->
    forall k sel es, call_of todo k = Some (TGetByLabel sel) -> EEnd k (TREntries (Ok es)) ∈ sy_hist s ->
    ascending (map te_id es) /\
    (forall e, e ∈ es -> sel (te_labels e) = true /\ te_len e = tn_outlen c /\
       exists n m, tn_moment r todo sched k n m /\ m !! te_id e = Some (te_labels e)) /\
    (forall id l, sel l = true -> (forall n m, tn_moment r todo sched k n m -> m !! id = Some l) ->
       TEntry id (tn_outlen c) l ∈ es).
Proof. exact C83_get_by_label_entries_pf. Qed.
Print Assumptions C83_get_by_label_entries.

Example C83_entries_example :
  hist_of method (tn_system ex_r83 [[TGetByLabel (fun l => 2 <=? l)]; [TRelease 11]]) (replicate 12 0%nat ++ replicate 9 1%nat ++ replicate 2 0%nat) =
  Some [EStart (0, 0)%nat; EStart (1, 0)%nat; EEnd (1, 0)%nat (TRUnit (Ok tt)); EEnd (0, 0)%nat (TREntries (Ok [TEntry 13 32 2]))].
Proof. vm_compute. reflexivity. Qed.

(** GetByLabel of iptable looks an address up a second time: it may return data
    that do not match. *)
Theorem C84_iptable_returns_only_matching_refuted :
  exists (from to : addr) (r : iptable bool) sel sched s,
    ip_range from to /\ ip_reachable Some from to r /\
    sys_run method (ip_system Some r [[IGetByLabel sel]; [IUpdate from false]]) sched = Some s /\
    EEnd (0, 0)%nat (IRDatas (Ok [false])) ∈ sy_hist s /\ sel false = false.
Proof. exact C84_iptable_returns_only_matching_refuted_pf. Qed.
Print Assumptions C84_iptable_returns_only_matching_refuted.

Example C84_refuted_example : ip_validate Some (ip_new (D := bool) (ex_a 0) (ex_a 1)) (ex_a 0) = Ok (ex_a 0).
Proof. vm_compute. reflexivity. Qed.

(** What it does: at one moment it lists the claimed addresses; then it looks each
    up at a later moment, and again if the data match; it returns the data found
    then, or panics if an address is not claimed any more. *)
Theorem C84_iptable_get_by_label_moments_partial :
  forall (S D : Type) (parse : S -> option addr) (from to : addr) (r : iptable D) (todo : list (list (iop S D))) sched s,
    ip_range from to -> a_val to - a_val from + 1 < 2 ^ 64 -> ip_reachable parse from to r ->
    sys_run method (ip_system parse r todo) sched = Some s ->
    forall k sel x, call_of todo k = Some (IGetByLabel sel) -> EEnd k x ∈ sy_hist s ->
    exists n m ids, ip_moment parse r todo sched k n m /\ listing m ids /\
      ((exists ds, looked_twice (ip_moment parse r todo sched k) sel n ids ds /\ x = IRDatas (Ok ds)) \/
       (x = IRDatas Panic /\ exists id n' m', id ∈ ids /\ (n <= n')%nat /\ ip_moment parse r todo sched k n' m' /\ m' !! id = None)).
Proof. exact C84_iptable_get_by_label_moments_partial_pf. Qed.
Print Assumptions C84_iptable_get_by_label_moments_partial.

Definition ex_ip84 : iptable N := fst (ip_run Some (ip_new (ex_a 0) (ex_a 5)) [IClaim (ex_a 1) 1; IClaim (ex_a 3) 2; IClaim (ex_a 4) 1]).
Example C84_example : ip_reachable Some (ex_a 0) (ex_a 5) ex_ip84 /\
  hist_of method (ip_system Some ex_ip84 [[IGetByLabel (fun l => l =? 1)]; [IUpdate (ex_a 1) 7; IUpdate (ex_a 4) 8]])
    (replicate 7 0%nat ++ replicate 30 1%nat ++ replicate 4 0%nat) =
  Some [EStart (0, 0)%nat; EStart (1, 0)%nat; EEnd (1, 0)%nat (IRUnit (Ok tt)); EStart (1, 1)%nat; EEnd (1, 1)%nat (IRUnit (Ok tt));
        EEnd (0, 0)%nat (IRDatas (Ok [7]))].
Proof. split; [by exists [IClaim (ex_a 1) 1; IClaim (ex_a 3) 2; IClaim (ex_a 4) 1]|vm_compute; reflexivity]. Qed.

(** An iterator of an idxtable next to other calls: the ids are those claimed at
    one moment, in ascending order; each value is the entry of that id at a later
    moment of its own, nil if it is not claimed then. *)
Theorem C85_iterator_values_moments :
  forall (T : Type) (sz : N) (d0 : table T) (todo : list (list (option (op T)))) sched s,
    0 < sz < 2 ^ 64 -> reachable sz d0 ->
    sys_run method (idx_system d0 todo) sched = Some s ->
    forall k x, call_of todo k = Some None -> EEnd k x ∈ sy_hist s ->
    exists n m ids vs, idx_moment d0 todo sched k n m /\ listing m ids /\ looked (idx_moment d0 todo sched k) n ids vs /\
      x = RValues (Ok (zip_with (fun id v => NewEntry id <$> v) ids vs)).
Proof. exact C85_iterator_values_moments_pf. Qed.
Print Assumptions C85_iterator_values_moments.

Definition ex_d85 : table N := fst (run (new_table 10) [OClaim 3 1; OClaim 5 2]).
Example C85_example : reachable 10 ex_d85 /\
  hist_of method (idx_system ex_d85 [[None]; [Some (ORelease 5)]]) (replicate 7 0%nat ++ replicate 9 1%nat ++ replicate 2 0%nat) =
  Some [EStart (0, 0)%nat; EStart (1, 0)%nat; EEnd (1, 0)%nat (RUnit (Ok tt)); EEnd (0, 0)%nat (RValues (Ok [Some (NewEntry 3 1); None]))].
Proof. split; [by exists [OClaim 3 1; OClaim 5 2]|vm_compute; reflexivity]. Qed.
