(** Proofs of the property statements about every sequence of calls on the radix
    tree, whatever the values and the functions passed. *)
From Verif Require Import TreeShape TreeShapeIter.
From Verif Require Export TreeShapeSpec.
From Coq Require Import Lia ZifyBool ZifyNat ZifyN.
Local Open Scope N_scope.

(** No call panics, and neither does an iteration. *)
Lemma C32_no_panics_pf : forall (T : Type) (zero : T) (c : idcfg) (os : list (top T)),
  c ∈ id_packages -> Forall (top_ok c) os ->
  exists s rs vss, t_run zero c (tree_zero c) os = Ok (s, rs) /\ iter_all zero s = Ok vss.
Proof.
  intros T zero c os Hc Hok. destruct (shape_run zero c Hc os _ _ (SInv_zero c Hc) Hok) as (s & rs & P & H1 & H2 & _).
  destruct (shape_iter zero c s P H2) as (vss & it & L1 & _). exists s, rs, vss. split; [done|].
  unfold iter_all. by rewrite L1.
Qed.

(** The iteration: one stop for every prefix that holds values, a prefix before its
    extensions and bit 0 before bit 1; each stop shows the values of that prefix,
    the ones a Delete compares with; then Next is false, and stays false. *)
Lemma C33_iteration_pf : forall (T : Type) (zero : T) (c : idcfg) (os : list (top T)) s rs,
  c ∈ id_packages -> Forall (top_ok c) os ->
  t_run zero c (tree_zero c) os = Ok (s, rs) ->
  exists P ps vss it, prefixes_run (id_w c) ∅ os rs P /\
    (forall q, q ∈ ps <-> q ∈ P) /\ StronglySorted pbefore ps /\
    iter_loop zero (S (N.to_nat (t_n s))) s iterate = Ok (vss, it) /\ iter_next s it = Ok (it, false) /\
    Forall (fun l => l <> []) vss /\
    Forall2 (fun q vs => forall x mf v, top_ok c (TDelete x mf v) -> prefix (id_w c) x = q ->
      exists s', t_step zero c s (TDelete x mf v) = Ok (s', RDeleted (count_matching mf v vs))) ps vss.
Proof.
  intros T zero c os s rs Hc Hok Hrun. destruct (shape_run zero c Hc os _ _ (SInv_zero c Hc) Hok) as (s' & rs' & P & H1 & H2 & H3).
  rewrite H1 in Hrun. injection Hrun as -> ->.
  destruct (shape_stops zero c Hc s P H2) as (ps & vss & it & L). by exists P, ps, vss, it.
Qed.

(** No append inside an insertion ever moved the node array. *)
Lemma C34_no_stale_pointers_pf : forall (T : Type) (zero : T) (c : idcfg) (os : list (top T)) s rs,
  c ∈ id_packages -> Forall (top_ok c) os ->
  t_run zero c (tree_zero c) os = Ok (s, rs) -> t_gen s = 0.
Proof.
  intros T zero c os s rs Hc Hok Hrun. destruct (shape_run zero c Hc os _ _ (SInv_zero c Hc) Hok) as (s' & rs' & P & H1 & H2 & _).
  rewrite H1 in Hrun. injection Hrun as -> ->. by apply (shape_nodes c Hc s P).
Qed.

(** Memory: at most two node slots per prefix at the peak, plus two. *)
Lemma C35_memory_pf : forall (T : Type) (zero : T) (c : idcfg) (os : list (top T)) s rs B,
  c ∈ id_packages -> Forall (top_ok c) os -> at_most_stops zero c os B ->
  t_run zero c (tree_zero c) os = Ok (s, rs) -> t_n s <= 2 + 2 * B.
Proof. intros T zero c os s rs B Hc Hok HB Hrun. by apply (shape_memory zero c Hc os s rs B). Qed.

(** Freed slots are used before the array grows. *)
Lemma C35_reuse_before_growth_pf : forall (T : Type) (zero : T) (c : idcfg) (os : list (top T)) o s rs s' r,
  c ∈ id_packages -> Forall (top_ok c) (os ++ [o]) ->
  t_run zero c (tree_zero c) os = Ok (s, rs) -> t_step zero c s o = Ok (s', r) ->
  t_n s < t_n s' -> t_avail s' = [].
Proof. intros T zero c os o s rs s' r Hc Hok Hrun Hstep. by apply (shape_reuse zero c Hc os o s rs s' r). Qed.

(** A node in use that holds no value and is not the root has two children. *)
Lemma C35_no_useless_nodes_pf : forall (T : Type) (zero : T) (c : idcfg) (os : list (top T)) s rs j nd,
  c ∈ id_packages -> Forall (top_ok c) os ->
  t_run zero c (tree_zero c) os = Ok (s, rs) ->
  1 < j -> j ∉ t_avail s -> t_nodes s !! j = Some nd -> n_cnt nd = 0 ->
  n_left nd <> 0 /\ n_right nd <> 0.
Proof.
  intros T zero c os s rs j nd Hc Hok Hrun. destruct (shape_run zero c Hc os _ _ (SInv_zero c Hc) Hok) as (s' & rs' & P & H1 & H2 & _).
  rewrite H1 in Hrun. injection Hrun as -> ->. by apply (shape_nodes c Hc s P).
Qed.
