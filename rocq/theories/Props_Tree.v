(** Generated by tools/genprops.py from TreeFinal.v; only statements,
    each closed by the lemma of the same name with suffix _pf. *)
From Verif Require Import TreeSpec TreeFinal.

(** After any sequence of calls the results are those of a plain map from
    prefixes to value lists, and the tree holds what the map holds.  The part
    left out: the 64-bit ids, and more than 2^w values at one prefix. *)
Theorem C31_tree_is_a_map_partial : forall (T : Type) (zero : T) (c : idcfg) (os : list (top T)),
  c ∈ id_packages_16_32 -> Forall (top_ok c) os -> roomy (id_w c) ∅ os ->
  exists s pv,
    t_run zero c (tree_zero c) os = Ok (s, snd (spec_run (id_w c) ∅ os)) /\
    listing (fst (spec_run (id_w c) ∅ os)) pv /\
    iter_all zero s = Ok pv.*2.
Proof. exact C31_tree_is_a_map_partial_pf. Qed.
Print Assumptions C31_tree_is_a_map_partial.

Definition T_ops : list (top N) :=
  [TSet (MyId 0x10000000 8) 10; TAdd (MyId 0x10000000 8) 11 None; TSet (MyId 0x14000000 6) 12;
   TSet (MyId 0x1a000000 7) 13; TAdd (MyId 0x10000000 8) 11 (Some N.eqb); TSet (MyId 0 0) 14;
   TDelete (MyId 0x1a000000 7) N.eqb 13; TDelete (MyId 0x10000000 8) N.eqb 10; TSet (MyId 0xffffffff 32) 15].
Example C31_example :
  cfg_id32 ∈ id_packages_16_32 /\ Forall (top_ok cfg_id32) T_ops /\ roomy 32 (∅ : pmap N) T_ops /\
  snd (spec_run 32 (∅ : pmap N) T_ops) =
    [RAdded true 1; RAdded true 2; RAdded true 1; RAdded true 1; RAdded false 2; RAdded true 1;
     RDeleted 1; RDeleted 1; RAdded true 1].
Proof.
  split; [right; left|]. split; [repeat constructor; vm_compute; done|].
  split; [apply (C31_short_runs_are_roomy_pf N cfg_id32); [right; left|vm_compute; discriminate]|].
  vm_compute. done.
Qed.

(** Runs that are not astronomically long always fit. *)
Theorem C31_short_runs_are_roomy : forall (T : Type) (c : idcfg) (os : list (top T)),
  c ∈ id_packages_16_32 ->
  N.of_nat (length os) <= (if id_w c =? 16 then 2 ^ 16 else 2 ^ 31 - 2) ->
  roomy (id_w c) (∅ : pmap T) os.
Proof. exact C31_short_runs_are_roomy_pf. Qed.
Print Assumptions C31_short_runs_are_roomy.

Example C31_short_example : N.of_nat (length T_ops) <= 2 ^ 31 - 2.
Proof. vm_compute. discriminate. Qed.

(** With Set and Delete only, as in package tree16, nothing is left out: the
    16-bit tree is a map for all sequences of calls. *)
Theorem C31_tree16_set_delete : forall (T : Type) (zero : T) (os : list (top T)),
  Forall (top_ok cfg_id16) os -> Forall set_or_delete os ->
  exists s pv,
    t_run zero cfg_id16 (tree_zero cfg_id16) os = Ok (s, snd (spec_run 16 ∅ os)) /\
    listing (fst (spec_run 16 ∅ os)) pv /\
    iter_all zero s = Ok pv.*2.
Proof. exact C31_tree16_set_delete_pf. Qed.
Print Assumptions C31_tree16_set_delete.

Definition T_ops16 : list (top N) :=
  [TSet (MyId 0x1234 16) 1; TSet (MyId 0x1200 8) 2; TDelete (MyId 0x1234 16) (fun _ _ => true) 0; TSet (MyId 0x1235 16) 3].
Example C31_tree16_example : Forall (top_ok cfg_id16) T_ops16 /\ Forall set_or_delete T_ops16.
Proof. split; repeat constructor; vm_compute; done. Qed.

(** What Delete leaves is what does not match, unless some of it matches a value
    before it. *)
Theorem C31_delete_is_filter : forall (T : Type) (mf : T -> T -> bool) (v : T) (l : list T),
  (forall i j a b, l !! i = Some a -> l !! j = Some b -> (i < j)%nat -> mf a v = false -> mf b v = false -> mf a b = false) ->
  delete_list mf v l = List.filter (fun y => negb (mf y v)) l.
Proof. exact C31_delete_is_filter_pf. Qed.
Print Assumptions C31_delete_is_filter.

Example C31_filter_example : delete_list N.eqb 2 [1; 2; 3] = [1; 3] /\ delete_list N.eqb 2 [1; 2; 1] = [1].
Proof. done. Qed.

Theorem C31_many_values_refuted : exists os : list (top N),
  Forall (top_ok cfg_id16) os /\ fst (spec_run 16 ∅ os) !! prefix 16 (MyId 0 1) = Some [7] /\
  exists s rs, t_run 0 cfg_id16 (tree_zero cfg_id16) os = Ok (s, rs) /\
    (do a <- iter_next s iterate; do b <- iter_next s (fst a); iter_vals 0 s (fst b)) = Ok [2].
Proof. exact C31_many_values_refuted_pf. Qed.
Print Assumptions C31_many_values_refuted.

(** With 64-bit ids all nodes share one key: the second value overwrites the
    first. *)
Theorem C31_tree64_refuted :
  exists (os : list (top N)) s rs pv,
    Forall (top_ok cfg_id64) os /\ Forall set_or_delete os /\
    t_run 0 cfg_id64 (tree_zero cfg_id64) os = Ok (s, rs) /\
    listing (fst (spec_run 64 ∅ os)) pv /\ iter_all 0 s <> Ok pv.*2.
Proof. exact C31_tree64_refuted_pf. Qed.
Print Assumptions C31_tree64_refuted.

(** The iteration: every stored prefix once, a prefix before its extensions and
    bit 0 before bit 1, with its values; then Next is false, and stays false. *)
Theorem C33_values_of_map : forall (T : Type) (zero : T) (c : idcfg) (os : list (top T)) s rs,
  c ∈ id_packages_16_32 -> Forall (top_ok c) os -> roomy (id_w c) ∅ os ->
  t_run zero c (tree_zero c) os = Ok (s, rs) ->
  exists pv it,
    listing (fst (spec_run (id_w c) ∅ os)) pv /\
    iter_loop zero (S (N.to_nat (t_n s))) s iterate = Ok (pv.*2, it) /\
    iter_next s it = Ok (it, false).
Proof. exact C33_values_of_map_pf. Qed.
Print Assumptions C33_values_of_map.

Example C33_example : exists s rs, t_run 0 cfg_id32 (tree_zero cfg_id32) T_ops = Ok (s, rs) /\
  iter_all 0 s = Ok [[14]; [11]; [12]; [15]].
Proof. do 2 eexists. split; vm_compute; reflexivity. Qed.

(** Clone: the copy forgets the length of the ids, so it reads other keys. *)
Theorem C36_clone_refuted :
  exists (os : list (top N)) s rs,
    Forall (top_ok cfg_id32) os /\ roomy 32 ∅ os /\
    t_run 0 cfg_id32 (tree_zero cfg_id32) os = Ok (s, rs) /\
    iter_all 0 s = Ok [[10]; [20]] /\ iter_all 0 (clone s) = Ok [[0]; [0]] /\
    (exists s', t_step 0 cfg_id32 s (TSet (MyId 0xb0000000 4) 30) = Ok s') /\
    t_step 0 cfg_id32 (clone s) (TSet (MyId 0xb0000000 4) 30) = Panic.
Proof. exact C36_clone_refuted_pf. Qed.
Print Assumptions C36_clone_refuted.

(** In general: iterating over a copy stops as often as iterating over the
    original and gives as many values at every stop, but all of them are the zero
    value while nodes and values per prefix together are fewer than 2^w. *)
Theorem C36_clone_partial : forall (T : Type) (zero : T) (c : idcfg) (os : list (top T)) s rs vss B,
  c ∈ id_packages_16_32 -> Forall (top_ok c) os -> roomy (id_w c) ∅ os ->
  t_run zero c (tree_zero c) os = Ok (s, rs) -> iter_all zero s = Ok vss ->
  exists vss', iter_all zero (clone s) = Ok vss' /\ length <$> vss' = length <$> vss /\
    (Forall (fun l => N.of_nat (length l) <= B) vss -> t_n s + B <= 2 ^ id_w c -> Forall (Forall (eq zero)) vss').
Proof. exact C36_clone_partial_pf. Qed.
Print Assumptions C36_clone_partial.

Example C36_example : exists s rs, t_run 0 cfg_id32 (tree_zero cfg_id32) T_ops = Ok (s, rs) /\
  t_n s + 1 <= 2 ^ 32 /\ iter_all 0 (clone s) = Ok [[0]; [0]; [0]; [0]].
Proof. do 2 eexists. split; [vm_compute; reflexivity|]. split; [vm_compute; discriminate|vm_compute; reflexivity]. Qed.

(** MergeID: the first leftLength bits of left, followed by the first
    rightLength bits of right as far as the width goes; then zeros. *)
Theorem C72_merge_id : forall w l ll r rl, w ∈ [16; 32; 64] -> l < 2 ^ w -> r < 2 ^ w -> ll <= w -> rl <= w ->
  merge_id w l ll r rl =
    Ok (l / 2 ^ (w - ll) * 2 ^ (w - ll) + r / 2 ^ (w - rl) * 2 ^ (w - rl) / 2 ^ ll, ll + rl).
Proof. exact C72_merge_id_pf. Qed.
Print Assumptions C72_merge_id.

Example C72_example : merge_id 16 0xabcd 4 0x1234 8 = Ok (0xa120, 12) /\ merge_id 16 0xabcd 12 0x1234 12 = Ok (0xabc1, 24).
Proof. split; vm_compute; reflexivity. Qed.

(** As prefixes: concatenation, when both fit. *)
Theorem C72_merge_id_concatenates : forall w l ll r rl, w ∈ [16; 32; 64] -> ll + rl <= w ->
  exists v, merge_id w l ll r rl = Ok (v, ll + rl) /\
    prefix w (MyId v (ll + rl)) = prefix w (MyId l ll) ++ prefix w (MyId r rl).
Proof. exact C72_merge_id_concatenates_pf. Qed.
Print Assumptions C72_merge_id_concatenates.

Example C72_concat_example : merge_id 16 0xa000 4 0x1234 8 = Ok (0xa120, 12) /\
  prefix 16 (MyId 0xa120 12) = prefix 16 (MyId 0xa000 4) ++ prefix 16 (MyId 0x1234 8).
Proof. split; vm_compute; reflexivity. Qed.

(** A length above the width panics. *)
Theorem C72_too_long_panics : forall w l ll r rl, w < ll \/ w < rl -> merge_id w l ll r rl = Panic.
Proof. exact C72_too_long_panics_pf. Qed.
Print Assumptions C72_too_long_panics.

Example C72_panic_example : merge_id 16 1 17 2 3 = Panic /\ merge_id 16 1 3 2 17 = Panic /\ merge_id 16 0xffff 16 0xffff 16 <> Panic.
Proof. split; [vm_compute; reflexivity|]. split; [vm_compute; reflexivity|]. vm_compute. discriminate. Qed.
