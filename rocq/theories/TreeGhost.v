(** The binary trie the node array represents, and what it says about the map. *)
From Verif Require Export TreeBits.
From Coq Require Import Lia ZifyBool ZifyNat ZifyN.
Local Open Scope N_scope.

Fixpoint strip (b q : list bool) : option (list bool) :=
  match b, q with
  | [], _ => Some q
  | a :: b', a' :: q' => if Bool.eqb a a' then strip b' q' else None
  | _ :: _, [] => None
  end.

Lemma strip_app a b q : strip (a ++ b) q = match strip a q with Some q' => strip b q' | None => None end.
Proof.
  revert q. induction a as [|x a IH]; intros q; cbn [app strip]; [done|].
  destruct q as [|y q]; [done|]. destruct (Bool.eqb x y); [apply IH|done].
Qed.
Lemma strip_self a q : strip a (a ++ q) = Some q.
Proof. induction a as [|x a IH]; cbn [app strip]; [done|]. by rewrite Bool.eqb_reflx. Qed.
Lemma strip_Some a q r : strip a q = Some r -> q = a ++ r.
Proof.
  revert q. induction a as [|x a IH]; intros q; cbn [app strip]; [by intros [= ->]|].
  destruct q as [|y q]; [done|]. destruct (Bool.eqb_spec x y) as [->|]; [|done].
  intros H. f_equal. by apply IH.
Qed.
Lemma strip_None a q : strip a q = None -> forall r, q <> a ++ r.
Proof. intros H r ->. by rewrite strip_self in H. Qed.

Section Ghost.
Context {T : Type}.

Inductive gt : Type := GNil | GNode (i : N) (b : list bool) (vs : list T) (l r : gt).

Fixpoint fp (t : gt) : list N :=
  match t with GNil => [] | GNode i _ _ l r => i :: fp l ++ fp r end.
Definition root (t : gt) : N := match t with GNil => 0 | GNode i _ _ _ _ => i end.
Definition starts (d : bool) (t : gt) : Prop :=
  match t with GNil => True | GNode _ b _ _ _ => head b = Some d end.
Definition child (d : bool) (l r : gt) : gt := if d then r else l.

Fixpoint glook (t : gt) (q : list bool) : list T :=
  match t with
  | GNil => []
  | GNode _ b vs l r =>
      match strip b q with
      | None => []
      | Some [] => vs
      | Some (d :: q') => glook (if d then r else l) (d :: q')
      end
  end.

(** Well-formed below the root, within d more bits. *)
Fixpoint wf (d : nat) (t : gt) : Prop :=
  match t with
  | GNil => True
  | GNode _ b vs l r =>
      b <> [] /\ (length b <= d)%nat /\ (vs = [] -> l <> GNil /\ r <> GNil) /\
      starts false l /\ starts true r /\ wf (d - length b) l /\ wf (d - length b) r
  end.
(** The root. *)
Definition wfr (d : nat) (t : gt) : Prop :=
  match t with
  | GNil => False
  | GNode i b vs l r => i = 1 /\ b = [] /\ starts false l /\ starts true r /\ wf d l /\ wf d r
  end.

Lemma glook_starts d t d' q : wf d t -> starts d' t -> glook t (negb d' :: q) = [].
Proof.
  destruct t as [|i b vs l r]; cbn [wf starts glook]; [done|]. intros (Hb & _) Hs.
  destruct b as [|x b]; [done|]. cbn in Hs. injection Hs as ->. cbn [strip].
  by destruct d'.
Qed.

Lemma glook_nil_sub d t : wf d t -> glook t [] = [].
Proof. destruct t as [|i b vs l r]; cbn [wf glook]; [done|]. intros (Hb & _). by destruct b. Qed.

Lemma glook_node i b vs l r q :
  glook (GNode i b vs l r) (b ++ q) = match q with [] => vs | d :: _ => glook (child d l r) q end.
Proof. cbn [glook]. rewrite strip_self. by destruct q as [|[] q]. Qed.

(** Preorder listing, below the path p. *)
Fixpoint pre (p : list bool) (t : gt) : list (list bool * list T) :=
  match t with
  | GNil => []
  | GNode _ b vs l r =>
      (match vs with [] => [] | _ => [(p ++ b, vs)] end) ++ pre (p ++ b) l ++ pre (p ++ b) r
  end.

Lemma pre_prefix p t q vs : (q, vs) ∈ pre p t -> exists q', q = p ++ q'.
Proof.
  revert p. induction t as [|i b us l IHl r IHr]; intros p; cbn [pre]; [by rewrite elem_of_nil|].
  rewrite !elem_of_app. intros [H|[H|H]].
  - destruct us; [by apply elem_of_nil in H|]. apply elem_of_list_singleton in H. injection H as -> _. by exists b.
  - apply IHl in H as (q' & ->). exists (b ++ q'). by rewrite app_assoc.
  - apply IHr in H as (q' & ->). exists (b ++ q'). by rewrite app_assoc.
Qed.

Lemma pre_nonempty p t q vs : (q, vs) ∈ pre p t -> vs <> [].
Proof.
  revert p. induction t as [|i b us l IHl r IHr]; intros p; cbn [pre]; [by rewrite elem_of_nil|].
  rewrite !elem_of_app. intros [H|[H|H]]; [|by eapply IHl|by eapply IHr].
  destruct us; [by apply elem_of_nil in H|]. apply elem_of_list_singleton in H. by injection H as _ ->.
Qed.

Lemma pre_glook_gen d p i b us l r q vs :
  (forall p q vs, (p ++ q, vs) ∈ pre p l <-> glook l q = vs /\ vs <> []) ->
  (forall p q vs, (p ++ q, vs) ∈ pre p r <-> glook r q = vs /\ vs <> []) ->
  starts false l -> starts true r -> wf d l -> wf d r ->
  (p ++ q, vs) ∈ pre p (GNode i b us l r) <-> glook (GNode i b us l r) q = vs /\ vs <> [].
Proof.
  intros IHl IHr Sl Sr Wl Wr. cbn [pre glook]. rewrite !elem_of_app.
  destruct (strip b q) as [q2|] eqn:Hs.
  - apply strip_Some in Hs as ->. rewrite (app_assoc p b q2), IHl, IHr.
    destruct q2 as [|a q2].
    + rewrite app_nil_r, !(glook_nil_sub d) by done. split.
      * intros [H|[[H1 H2]|[H1 H2]]]; [|by subst|by subst].
        destruct us; [by apply elem_of_nil in H|]. apply elem_of_list_singleton in H. by injection H as ->.
      * intros [-> Hvs]. left. destruct vs; [done|]. by apply elem_of_list_singleton.
    + assert (Hno : ((p ++ b) ++ a :: q2, vs) ∈ (match us with [] => [] | _ => [(p ++ b, us)] end) <-> False).
      { split; [|done]. intros H. destruct us; [by apply elem_of_nil in H|].
        apply elem_of_list_singleton in H. injection H as H _.
        rewrite <- (app_nil_r (p ++ b)) in H at 2. by apply app_inv_head in H. }
      rewrite Hno. destruct a.
      * pose proof (glook_starts d l false q2 Wl Sl) as Hz. cbn [negb] in Hz. rewrite Hz. split; [|tauto].
        intros [H|[[<- H]|H]]; done.
      * pose proof (glook_starts d r true q2 Wr Sr) as Hz. cbn [negb] in Hz. rewrite Hz. split; [|tauto].
        intros [H|[H|[<- H]]]; done.
  - split; [|by intros [<- ?]]. intros H. exfalso.
    assert (Hp : exists q', p ++ q = (p ++ b) ++ q').
    { destruct H as [H|[H|H]]; [|by apply pre_prefix in H..].
      destruct us; [by apply elem_of_nil in H|]. apply elem_of_list_singleton in H. injection H as H _.
      exists []. by rewrite app_nil_r. }
    destruct Hp as [q' Hp]. rewrite <- app_assoc in Hp. apply app_inv_head in Hp. by eapply strip_None.
Qed.

Lemma pre_glook d p t q vs : wf d t -> (p ++ q, vs) ∈ pre p t <-> glook t q = vs /\ vs <> [].
Proof.
  revert d p q vs. induction t as [|i b us l IHl r IHr]; intros d p q vs Hw.
  { cbn [pre glook]. rewrite elem_of_nil. split; [done|]. intros [<- H]. done. }
  destruct Hw as (Hb & Hd & Hc & Sl & Sr & Wl & Wr).
  apply (pre_glook_gen (d - length b)); [intros; by eapply IHl|intros; by eapply IHr|done..].
Qed.

Lemma pre_glook_root d t q vs : wfr d t -> (q, vs) ∈ pre [] t <-> glook t q = vs /\ vs <> [].
Proof.
  destruct t as [|i b us l r]; [done|]. intros (-> & -> & Sl & Sr & Wl & Wr).
  apply (pre_glook_gen d [] 1 [] us l r q vs); [intros; by eapply pre_glook|intros; by eapply pre_glook|done..].
Qed.

(** The listing is in iterator order. *)
Lemma pbefore_app p a b : pbefore a b -> pbefore (p ++ a) (p ++ b).
Proof. intros H. induction p as [|x p IH]; cbn [app pbefore]; [done|]. by right. Qed.

Lemma pbefore_irrefl p : ~ pbefore p p.
Proof. induction p as [|x p IH]; cbn [pbefore]; [tauto|]. intros [[-> H]|[_ H]]; [done|by apply IH]. Qed.

Lemma pre_head d p t q vs d' : wf d t -> starts d' t -> (q, vs) ∈ pre p t -> exists q', q = p ++ d' :: q'.
Proof.
  intros Hw Hs Hin. destruct (pre_prefix _ _ _ _ Hin) as [q' ->].
  apply (pre_glook d p t q' vs Hw) in Hin as [Hg Hn]. destruct q' as [|a q'].
  - rewrite (glook_nil_sub d t Hw) in Hg. by subst.
  - destruct (decide (a = d')) as [->|Ha]; [by eexists|].
    assert (a = negb d') as -> by (by destruct a, d'). rewrite (glook_starts d t d' q' Hw Hs) in Hg. by subst.
Qed.

Lemma sorted_app (l1 l2 : list (list bool * list T)) :
  StronglySorted pbefore l1.*1 -> StronglySorted pbefore l2.*1 ->
  (forall x y, x ∈ l1 -> y ∈ l2 -> pbefore x.1 y.1) -> StronglySorted pbefore (l1 ++ l2).*1.
Proof.
  intros H1 H2 Hx. induction l1 as [|x l1 IH]; [done|]. cbn [app fmap list_fmap] in *.
  apply StronglySorted_inv in H1 as [H1 Hf]. constructor.
  - apply IH; [done|]. intros u v Hu Hv. apply Hx; [by right|done].
  - rewrite fmap_app, Forall_app. split; [done|]. rewrite Forall_fmap, Forall_forall. intros y Hy.
    apply Hx; [left|done].
Qed.

Lemma pre_sorted_gen d p i b us l r :
  (forall p, StronglySorted pbefore (pre p l).*1) -> (forall p, StronglySorted pbefore (pre p r).*1) ->
  starts false l -> starts true r -> wf d l -> wf d r ->
  StronglySorted pbefore (pre p (GNode i b us l r)).*1.
Proof.
  intros IHl IHr Sl Sr Wl Wr. cbn [pre]. apply sorted_app.
  - destruct us; [constructor|]. cbn. by repeat constructor.
  - apply sorted_app; [done|done|]. intros [q1 v1] [q2 v2] H1 H2. cbn [fst].
    apply (pre_head d _ l _ _ false) in H1 as [q1' ->]; [|done|done].
    apply (pre_head d _ r _ _ true) in H2 as [q2' ->]; [|done|done].
    apply pbefore_app. cbn [pbefore]. by left.
  - intros [q1 v1] [q2 v2] H1 H2. cbn [fst].
    destruct us; [by apply elem_of_nil in H1|]. apply elem_of_list_singleton in H1. injection H1 as -> ->.
    assert (exists a q', q2 = (p ++ b) ++ a :: q') as (a & q' & ->).
    { apply elem_of_app in H2 as [H2|H2].
      - apply (pre_head d _ l _ _ false) in H2 as [q2' ->]; [|done|done]. by eexists _, _.
      - apply (pre_head d _ r _ _ true) in H2 as [q2' ->]; [|done|done]. by eexists _, _. }
    rewrite <- (app_nil_r (p ++ b)) at 1. by apply pbefore_app.
Qed.

Lemma pre_sorted d p t : wf d t -> StronglySorted pbefore (pre p t).*1.
Proof.
  revert d p. induction t as [|i b us l IHl r IHr]; intros d p Hw; [constructor|].
  destruct Hw as (Hb & Hd & Hc & Sl & Sr & Wl & Wr).
  apply (pre_sorted_gen (d - length b)); [intros; by eapply IHl|intros; by eapply IHr|done..].
Qed.

Lemma pre_sorted_root d t : wfr d t -> StronglySorted pbefore (pre [] t).*1.
Proof.
  destruct t as [|i b us l r]; [done|]. intros (-> & -> & Sl & Sr & Wl & Wr).
  apply (pre_sorted_gen d); [intros; by eapply pre_sorted|intros; by eapply pre_sorted|done..].
Qed.

Lemma sorted_NoDup (ps : list (list bool)) : StronglySorted pbefore ps -> NoDup ps.
Proof.
  induction 1 as [|p ps H IH Hf]; constructor; [|done]. intros Hin. rewrite Forall_forall in Hf.
  by apply (pbefore_irrefl p), Hf.
Qed.

(** Few nodes: below the root at most two per prefix with values, less one. *)
Lemma fp_count d t : wf d t -> t <> GNil -> forall p, (S (length (fp t)) <= 2 * length (pre p t))%nat.
Proof.
  revert d. induction t as [|i b us l IHl r IHr]; intros d Hw Hn p; [done|].
  destruct Hw as (Hb & Hd & Hc & Sl & Sr & Wl & Wr). cbn [fp pre length].
  rewrite !app_length.
  assert (Hl : l = GNil \/ (S (length (fp l)) <= 2 * length (pre (p ++ b) l))%nat).
  { destruct l; [by left|right]. by eapply IHl. }
  assert (Hr : r = GNil \/ (S (length (fp r)) <= 2 * length (pre (p ++ b) r))%nat).
  { destruct r; [by left|right]. by eapply IHr. }
  assert (L0 : l = GNil -> length (fp l) = 0%nat) by (by intros ->).
  assert (R0 : r = GNil -> length (fp r) = 0%nat) by (by intros ->).
  destruct us as [|u us].
  - destruct (Hc eq_refl) as [Hl1 Hr1]. destruct Hl as [|Hl]; [done|]. destruct Hr as [|Hr]; [done|]. cbn [length]. lia.
  - cbn [length]. destruct Hl as [Hl|Hl]; destruct Hr as [Hr|Hr];
      try specialize (L0 Hl); try specialize (R0 Hr); lia.
Qed.

Lemma fp_count_le d t p : wf d t -> (length (fp t) <= 2 * length (pre p t))%nat.
Proof.
  intros Hw. destruct t as [|i b us l r] eqn:Ht; [cbn; lia|].
  rewrite <- Ht in *. assert (Hn : t <> GNil) by (by subst). pose proof (fp_count d t Hw Hn p). lia.
Qed.

Lemma fp_count_root d t : wfr d t -> (length (fp t) <= 1 + 2 * length (pre [] t))%nat.
Proof.
  destruct t as [|i b us l r]; [done|]. intros (-> & -> & Sl & Sr & Wl & Wr).
  cbn [fp pre length app]. rewrite !app_length.
  pose proof (fp_count_le d l [] Wl). pose proof (fp_count_le d r [] Wr). lia.
Qed.

Lemma root_fp t : t <> GNil -> root t ∈ fp t.
Proof. destruct t; [done|]. intros _. left. Qed.

End Ghost.
Arguments gt : clear implicits.
