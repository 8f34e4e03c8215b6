(** Generated by tools/genprops.py from TreeShapeFinal.v; only statements,
    each closed by the lemma of the same name with suffix _pf. *)
From Verif Require Import TreeSpec TreeShapeSpec TreeShapeFinal.

(** No call panics, and neither does an iteration. *)
Theorem C32_no_panics : forall (T : Type) (zero : T) (c : idcfg) (os : list (top T)),
  c ∈ id_packages -> Forall (top_ok c) os ->
  exists s rs vss, t_run zero c (tree_zero c) os = Ok (s, rs) /\ iter_all zero s = Ok vss.
Proof. exact C32_no_panics_pf. Qed.
Print Assumptions C32_no_panics.

(** Runs with every call on a 64-bit tree, where the keys of the values collide:
    several values per prefix, a match function that is always true, one that is
    always false, nested and disjoint prefixes. *)
Definition S_ops : list (top N) :=
  [TSet (MyId (2 ^ 60) 8) 10; TAdd (MyId (2 ^ 60) 8) 11 None; TSet (MyId (2 ^ 60 + 2 ^ 58) 6) 12;
   TAdd (MyId (2 ^ 60 + 2 ^ 59) 7) 13 (Some N.eqb); TAdd (MyId (2 ^ 60) 8) 11 (Some (fun _ _ => true)); TSet (MyId 0 0) 14;
   TDelete (MyId (2 ^ 60 + 2 ^ 59) 7) (fun _ _ => true) 13; TDelete (MyId (2 ^ 60) 8) (fun _ _ => false) 10;
   TSet (MyId (2 ^ 64 - 1) 64) 15; TAdd (MyId (2 ^ 64 - 1) 64) 16 None].
Example C32_example : cfg_id64 ∈ id_packages /\ Forall (top_ok cfg_id64) S_ops /\
  (do a <- t_run 0 cfg_id64 (tree_zero cfg_id64) S_ops; do vss <- iter_all 0 (fst a); Ok (length (snd a), length vss)) = Ok (10%nat, 4%nat).
Proof.
  split; [repeat constructor|].
  split; [repeat constructor; vm_compute; done|vm_compute; reflexivity].
Qed.

(** The iteration: one stop for every prefix that holds values, a prefix before its
    extensions and bit 0 before bit 1; each stop shows the values of that prefix,
    the ones a Delete compares with; then Next is false, and stays false. *)
Theorem C33_iteration : forall (T : Type) (zero : T) (c : idcfg) (os : list (top T)) s rs,
  c ∈ id_packages -> Forall (top_ok c) os ->
  t_run zero c (tree_zero c) os = Ok (s, rs) ->
  exists P ps vss it, prefixes_run (id_w c) ∅ os rs P /\
    (forall q, q ∈ ps <-> q ∈ P) /\ StronglySorted pbefore ps /\
    iter_loop zero (S (N.to_nat (t_n s))) s iterate = Ok (vss, it) /\ iter_next s it = Ok (it, false) /\
    Forall (fun l => l <> []) vss /\
    Forall2 (fun q vs => forall x mf v, top_ok c (TDelete x mf v) -> prefix (id_w c) x = q ->
      exists s', t_step zero c s (TDelete x mf v) = Ok (s', RDeleted (count_matching mf v vs))) ps vss.
Proof. exact C33_iteration_pf. Qed.
Print Assumptions C33_iteration.

(** The same calls on the three packages, with ids of the same first bits. *)
Definition S_at (w : N) (o : top N) : top N :=
  let f x := MyId (N.shiftr (i_id x) (64 - w)) (N.min w (i_len x)) in
  match o with
  | TSet x v => TSet (f x) v
  | TAdd x v mf => TAdd (f x) v mf
  | TDelete x mf v => TDelete (f x) mf v
  end.
Example C33_stops_example :
  map (fun c => do a <- t_run 0 c (tree_zero c) (map (S_at (id_w c)) S_ops); do vss <- iter_all 0 (fst a); Ok (length vss))
    [cfg_id16; cfg_id32; cfg_id64] = [Ok 4%nat; Ok 4%nat; Ok 4%nat] /\
  (forall c, c ∈ id_packages -> Forall (top_ok c) (map (S_at (id_w c)) S_ops)).
Proof.
  split; [vm_compute; reflexivity|]. intros c Hc.
  repeat (apply elem_of_cons in Hc as [->|Hc]; [repeat constructor; vm_compute; done|]). by apply elem_of_nil in Hc.
Qed.
(** On the 64-bit tree the second stop is the prefix of length 8; the later calls
    have overwritten its two values, and a Delete sees what the iteration shows. *)
Example C33_example :
  (do a <- t_run 0 cfg_id64 (tree_zero cfg_id64) S_ops; do vss <- iter_all 0 (fst a);
   do b <- t_step 0 cfg_id64 (fst a) (TDelete (MyId (2 ^ 60) 8) N.ltb 16); Ok (vss, snd b))
  = Ok ([[15]; [15; 16]; [15]; [15; 16]], RDeleted 1).
Proof. vm_compute. reflexivity. Qed.

(** No append inside an insertion ever moved the node array. *)
Theorem C34_no_stale_pointers : forall (T : Type) (zero : T) (c : idcfg) (os : list (top T)) s rs,
  c ∈ id_packages -> Forall (top_ok c) os ->
  t_run zero c (tree_zero c) os = Ok (s, rs) -> t_gen s = 0.
Proof. exact C34_no_stale_pointers_pf. Qed.
Print Assumptions C34_no_stale_pointers.

(** A run whose node list is grown several times, with deletes in between. *)
Example C34_example :
  (do a <- t_run 0 cfg_id64 (tree_zero cfg_id64) (S_ops ++ map (fun k => TAdd (MyId (N.of_nat k) 64) 1 None) (seq 0 20) ++ S_ops);
   Ok (t_gen (fst a), 30 <? t_n (fst a))) = Ok (0, true).
Proof. vm_compute. reflexivity. Qed.

(** Memory: at most two node slots per prefix at the peak, plus two. *)
Theorem C35_memory : forall (T : Type) (zero : T) (c : idcfg) (os : list (top T)) s rs B,
  c ∈ id_packages -> Forall (top_ok c) os -> at_most_stops zero c os B ->
  t_run zero c (tree_zero c) os = Ok (s, rs) -> t_n s <= 2 + 2 * B.
Proof. exact C35_memory_pf. Qed.
Print Assumptions C35_memory.

(** The 10 calls above have at most 4 prefixes at a time, and use 7 of at most 10
    slots. *)
Example C35_example :
  (do a <- t_run 0 cfg_id64 (tree_zero cfg_id64) S_ops; Ok (t_n (fst a))) = Ok 7 /\
  map (fun k => do a <- t_run 0 cfg_id64 (tree_zero cfg_id64) (take k S_ops); do vss <- iter_all 0 (fst a); Ok (length vss)) (seq 0 11)
  = map Ok [0; 1; 1; 2; 3; 3; 4; 3; 3; 4; 4]%nat.
Proof. split; vm_compute; reflexivity. Qed.

(** Freed slots are used before the array grows. *)
Theorem C35_reuse_before_growth : forall (T : Type) (zero : T) (c : idcfg) (os : list (top T)) o s rs s' r,
  c ∈ id_packages -> Forall (top_ok c) (os ++ [o]) ->
  t_run zero c (tree_zero c) os = Ok (s, rs) -> t_step zero c s o = Ok (s', r) ->
  t_n s < t_n s' -> t_avail s' = [].
Proof. exact C35_reuse_before_growth_pf. Qed.
Print Assumptions C35_reuse_before_growth.

Example C35_reuse_example : exists s s' r,
  t_run 0 cfg_id64 (tree_zero cfg_id64) [TSet (MyId (2 ^ 60) 8) 10; TDelete (MyId (2 ^ 60) 8) N.eqb 10; TSet (MyId (2 ^ 61) 8) 10] = Ok (s, r) /\
  t_avail s = [] /\ t_n s = 3 /\
  t_step 0 cfg_id64 s (TAdd (MyId (2 ^ 62) 8) 10 None) = Ok (s', RAdded true 1) /\ t_avail s' = [] /\ t_n s' = 5.
Proof. do 3 eexists. split; [vm_compute; reflexivity|]. repeat (split; [vm_compute; reflexivity|]). vm_compute; reflexivity. Qed.

(** A node in use that holds no value and is not the root has two children. *)
Theorem C35_no_useless_nodes : forall (T : Type) (zero : T) (c : idcfg) (os : list (top T)) s rs j nd,
  c ∈ id_packages -> Forall (top_ok c) os ->
  t_run zero c (tree_zero c) os = Ok (s, rs) ->
  1 < j -> j ∉ t_avail s -> t_nodes s !! j = Some nd -> n_cnt nd = 0 ->
  n_left nd <> 0 /\ n_right nd <> 0.
Proof. exact C35_no_useless_nodes_pf. Qed.
Print Assumptions C35_no_useless_nodes.

Example C35_nodes_example : exists s rs nd,
  t_run 0 cfg_id64 (tree_zero cfg_id64) [TSet (MyId (2 ^ 60) 8) 10; TAdd (MyId (2 ^ 60 + 2 ^ 58 + 2 ^ 59) 7) 13 None] = Ok (s, rs) /\
  t_avail s = [] /\ t_nodes s !! 3 = Some nd /\ n_cnt nd = 0 /\ n_left nd = 2 /\ n_right nd = 4.
Proof. do 3 eexists. split; [vm_compute; reflexivity|]. repeat (split; [vm_compute; reflexivity|]). vm_compute; reflexivity. Qed.
