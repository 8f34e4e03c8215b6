(** The trees of the packages tree16 and tree32 against the record of their
    calls: the invariant, the loops over the iterator, set and del. *)
From Verif Require Export GTreeSpec TreeMain.
From Verif Require Import TreeFinal.
From Coq Require Import Lia ZifyBool ZifyNat ZifyN.
Local Open Scope N_scope.

Lemma gpack c : c ∈ g_packages_16_32 -> gc_id c ∈ id_packages_16_32.
Proof.
  unfold g_packages_16_32, id_packages_16_32. intros H.
  apply elem_of_cons in H as [->|H]; [left|]. apply elem_of_cons in H as [->|H]; [right; left|].
  by apply elem_of_nil in H.
Qed.

Section Loop.
Context {L : Type}.
Notation zero := (@None (tentry L)).

(** The body on every stop's values until it returns. *)
Fixpoint fold_body {A} (fb : list (option (tentry L)) -> A -> res (A * bool)) (vss : list (list (option (tentry L)))) (a : A) : res A :=
  match vss with
  | [] => Ok a
  | vs :: vss' => do r <- fb vs a; if snd r then Ok (fst r) else fold_body fb vss' (fst r)
  end.

Lemma g_loop_spec {A} (g : gtree L) (body : iter -> A -> res (A * bool)) fb :
  (forall it vs a, iter_vals zero (g_tree g) it = Ok vs -> body it a = fb vs a) ->
  forall fuel it vss it' a, iter_loop zero fuel (g_tree g) it = Ok (vss, it') ->
    g_loop fuel g body a it = fold_body fb vss a.
Proof.
  intros Hb. induction fuel as [|fuel IH]; intros it vss it' a H; cbn [iter_loop g_loop] in *; [done|].
  destruct (iter_next (g_tree g) it) as [[it1 b]| |]; cbn [rbind fst snd] in *; [|done..].
  destruct b; [|by injection H as <- <-].
  destruct (iter_vals zero (g_tree g) it1) as [vs| |] eqn:Hv; cbn [rbind] in *; [|done..].
  destruct (iter_loop zero fuel (g_tree g) it1) as [[rest it2]| |] eqn:Hl; cbn [rbind fst snd] in *; [|done..].
  injection H as <- <-. cbn [fold_body]. rewrite (Hb it1 vs a Hv).
  destruct (fb vs a) as [[a' []]| |]; cbn [rbind fst snd]; [done| |done|done]. by eapply IH.
Qed.

Context (c : gcfg) (Hc : c ∈ g_packages_16_32).
Notation w := (gw c).

Let Hcc := gpack c Hc.
Let Hwide : wide (option (tentry L)) (gc_id c) := proj1 (wide_16_32 _ _ Hcc).
Let Hw : w ∈ [16; 32; 64] := proj2 (wide_16_32 (option (tentry L)) _ Hcc).
Local Existing Instance Hwide.

Lemma gw_cases : w = 16 \/ w = 32.
Proof.
  clear -Hc. unfold g_packages_16_32 in Hc. apply elem_of_cons in Hc as [->|H]; [by left|].
  apply elem_of_cons in H as [->|H]; [by right|]. by apply elem_of_nil in H.
Qed.

Definition vmap (m : record L) : pmap (option (tentry L)) :=
  fmap (M := gmap (list bool)) (fun e : tentry L => [Some e]) m.

Record GInv (n : N) (m : record L) (g : gtree L) : Prop := MkGInv {
  gi_n : n <= w;
  gi_size : g_size g = 2 ^ n - 1;
  gi_length : g_length g = n;
  gi_tree : exists t, Inv None (gc_id c) (g_tree g) (vmap m) t;
  gi_ok : forall q e, m !! q = Some e -> q = prefix w (eid e) /\ gid_ok c (eid e) }.

(** [es] are the entries in order. *)
Definition entries (m : record L) (es : list (tentry L)) : Prop :=
  StronglySorted (before_entry c) es /\ forall e, e ∈ es <-> m !! prefix w (eid e) = Some e.

Lemma vmap_lookup m q : vmap m !! q = (fun e => [Some e]) <$> m !! q.
Proof. unfold vmap, pmap. apply (lookup_fmap (M := gmap (list bool))). Qed.
Lemma held_vmap m q : held (vmap m) q = match m !! q with Some e => [Some e] | None => [] end.
Proof. unfold held. rewrite vmap_lookup. by destruct (m !! q). Qed.
Lemma vmap_insert m q e : vmap (<[q := e]> m) = put (vmap m) q [Some e].
Proof. unfold vmap, put, pmap. by rewrite (fmap_insert (M := gmap (list bool))). Qed.
Lemma vmap_delete m q : vmap (delete q m) = put (vmap m) q [].
Proof. unfold vmap, put, pmap. by rewrite (fmap_delete (M := gmap (list bool))). Qed.
Lemma vmap_size m : size (vmap m) = size m.
Proof. unfold vmap, pmap. apply (map_size_fmap (M := gmap (list bool))). Qed.

Lemma sorted_map {A B} (R : B -> B -> Prop) (f : A -> B) l :
  StronglySorted R (f <$> l) -> StronglySorted (fun x y => R (f x) (f y)) l.
Proof.
  induction l as [|a l IH]; cbn; intros H; [constructor|]. apply StronglySorted_inv in H as [H1 H2].
  constructor; [by apply IH|]. by rewrite Forall_fmap in H2.
Qed.

(** The iterator stops at the entries, in order. *)
Lemma GInv_entries n m g : GInv n m g ->
  exists es it', iter_loop zero (S (N.to_nat (t_n (g_tree g)))) (g_tree g) iterate =
                   Ok ((fun e => [Some e]) <$> es, it') /\ entries m es.
Proof.
  intros [_ _ _ [t Ht] Hok]. destruct (Inv_listing None (gc_id c) _ _ t Ht) as [Hs Hin].
  destruct (iter_inv None (gc_id c) (g_tree g) t (Iv_inv _ _ _ _ _ Ht)) as (Hl & _).
  assert (Hex : exists es, pre [] t = (fun e => (prefix w (eid e), [Some e])) <$> es).
  { assert (Hall : forall x, x ∈ pre [] t -> exists e, x = (prefix w (eid e), [Some e])).
    { intros [q l] Hx. apply Hin in Hx. rewrite vmap_lookup in Hx.
      destruct (m !! q) as [e|] eqn:He; [|done]. injection Hx as <-. exists e. by destruct (Hok q e He) as [<- _]. }
    clear -Hall. induction (pre [] t) as [|x pv IH]; [by exists []|].
    destruct IH as [es Hes]. { intros y Hy. apply Hall. by right. }
    destruct (Hall x) as [e He]; [left|]. exists (e :: es). cbn. by rewrite He, Hes. }
  destruct Hex as [es Hes]. rewrite <- (pre_vlist t []), Hes, <- list_fmap_compose in Hl.
  exists es. eexists. split; [exact Hl|]. rewrite Hes in Hs, Hin. split.
  - rewrite <- list_fmap_compose in Hs. by apply sorted_map in Hs.
  - intros e. specialize (Hin (prefix w (eid e)) [Some e]). rewrite vmap_lookup in Hin.
    split.
    + intros He. assert (H : (λ e0 : tentry L, [Some e0]) <$> m !! prefix w (eid e) = Some [Some e])
        by (apply Hin; apply elem_of_list_fmap; by exists e). by destruct (m !! _); inversion H.
    + intros He. rewrite He in Hin. destruct Hin as [_ Hin]. specialize (Hin eq_refl).
      apply elem_of_list_fmap in Hin as (e' & [= _ ->] & He'). done.
Qed.

Lemma pbefore_trans p : forall q r, pbefore p q -> pbefore q r -> pbefore p r.
Proof.
  induction p as [|a p IH]; intros [|b q] [|d r]; cbn; try done.
  intros [[-> ->]|[-> H1]] [[H2 ->]|[<- H2]]; try done; [by left..|]. right. split; [done|]. by eapply IH.
Qed.

(** There is only one such list. *)
Lemma entries_unique m es es' : entries m es -> entries m es' -> es = es'.
Proof.
  intros [S1 I1] [S2 I2]. assert (Heq : forall e, e ∈ es <-> e ∈ es') by (intros e; by rewrite I1, I2).
  clear I1 I2. revert es' S2 Heq. induction S1 as [|e es S1 IH F1]; intros es' S2 Heq.
  - destruct es' as [|e' es']; [done|]. assert (H : e' ∈ []) by (apply Heq; left). by apply elem_of_nil in H.
  - destruct S2 as [|e' es' S2 F2].
    { assert (H : e ∈ []) by (apply Heq; left). by apply elem_of_nil in H. }
    rewrite Forall_forall in F1, F2.
    assert (e = e') as <-.
    { assert (H : e ∈ e' :: es') by (apply Heq; left). apply elem_of_cons in H as [H|H]; [done|].
      assert (H' : e' ∈ e :: es) by (apply Heq; left). apply elem_of_cons in H' as [H'|H']; [done|].
      exfalso. apply (pbefore_irrefl (prefix w (eid e))). eapply pbefore_trans; [by apply F1|by apply F2]. }
    f_equal. apply IH; [done|]. intros x. specialize (Heq x). rewrite !elem_of_cons in Heq. split; intros Hx.
    + destruct Heq as [Heq _]. destruct Heq as [->|]; [by right| |done]. exfalso. by eapply pbefore_irrefl, F1.
    + destruct Heq as [_ Heq]. destruct Heq as [->|]; [by right| |done]. exfalso. by eapply pbefore_irrefl, F2.
Qed.

Lemma entries_NoDup m es : entries m es -> NoDup es.
Proof.
  intros [S _]. induction S as [|e es S IH F]; [constructor|]. constructor; [|done].
  intros H. rewrite Forall_forall in F. by eapply pbefore_irrefl, F.
Qed.

Lemma entries_filter m es (P : tentry L -> bool) : entries m es ->
  entries (filter (fun qe => P qe.2 = true) m) (List.filter P es).
Proof.
  intros [S I]. split.
  - clear I. induction S as [|e es S IH F]; [constructor|]. cbn. destruct (P e); [|done].
    constructor; [done|]. rewrite Forall_forall in *. intros x Hx. apply F.
    apply elem_of_list_In, filter_In in Hx as [Hx _]. by apply elem_of_list_In.
  - intros e. rewrite map_filter_lookup_Some, elem_of_list_In, filter_In, <- elem_of_list_In, I. done.
Qed.

(** The loops of the package over the entries. *)
Lemma fold_collect fb (p : tentry L -> bool) es : forall acc,
  (forall e acc, e ∈ es -> fb [Some e] acc = Ok (if p e then acc ++ [Some e] else acc, false)) ->
  fold_body fb ((fun e => [Some e]) <$> es) acc = Ok (acc ++ (Some <$> List.filter p es)).
Proof.
  induction es as [|e es IH]; intros acc H; cbn.
  - by rewrite app_nil_r.
  - rewrite H by left. cbn [rbind fst snd]. rewrite IH by (intros e' acc' He'; apply H; by right).
    destruct (p e); cbn; [|done]. by rewrite <- app_assoc.
Qed.
Lemma fold_find fb (p : tentry L -> bool) es :
  (forall e, e ∈ es -> fb [Some e] None = Ok (if p e then (Some e, true) else (None, false))) ->
  fold_body fb ((fun e => [Some e]) <$> es) None = Ok (List.find p es).
Proof.
  induction es as [|e es IH]; intros H; cbn; [done|]. rewrite H by left. cbn [rbind].
  destruct (p e); cbn [fst snd]; [done|]. apply IH. intros e' He'. apply H. by right.
Qed.
Lemma fold_count fb es : forall k : N,
  (forall vs k, fb vs k = Ok (k + 1, false)) ->
  fold_body fb ((fun e : tentry L => [Some e]) <$> es) k = Ok (k + N.of_nat (length es)).
Proof.
  induction es as [|e es IH]; intros k H; cbn [fold_body fmap list_fmap length].
  - by rewrite N.add_0_r.
  - rewrite H. cbn [rbind fst snd]. rewrite IH by done. f_equal. lia.
Qed.

Section Reads.
Context (n : N) (m : record L) (g : gtree L) (HG : GInv n m g).

Lemma entries_gid es e : entries m es -> e ∈ es -> gid_ok c (eid e).
Proof. intros [_ H] He. apply H in He. by destruct (gi_ok _ _ _ HG _ _ He). Qed.

Lemma id_len_inj x y : gid_ok c x -> gid_ok c y -> prefix w x = prefix w y -> i_len x = i_len y.
Proof. intros _ _ H. apply (f_equal length) in H. rewrite !prefix_length in H. lia. Qed.

Lemma g_for_fold {A} (body : iter -> A -> res (A * bool)) fb a :
  (forall it vs a, iter_vals zero (g_tree g) it = Ok vs -> body it a = fb vs a) ->
  exists es, entries m es /\ g_for g body a = fold_body fb ((fun e => [Some e]) <$> es) a.
Proof.
  intros Hb. destruct (GInv_entries n m g HG) as (es & it' & Hl & He). exists es. split; [done|].
  unfold g_for. by apply (g_loop_spec g body fb Hb _ _ _ it').
Qed.

Lemma find_entries es x : entries m es -> gid_ok c x ->
  List.find (fun e => same_id e x) es = lookup_id c m x.
Proof.
  intros He Hx. unfold lookup_id.
  destruct (List.find (fun e => same_id e x) es) as [e|] eqn:Hf.
  - apply find_some in Hf as [Hin Hs]. apply elem_of_list_In, He in Hin.
    assert (Hp : eid e = x).
    { unfold same_id in Hs. apply andb_true_iff in Hs as [H1 H2]. apply N.eqb_eq in H1, H2. destruct x. cbn in *.
      unfold eid. by rewrite H1, H2. }
    rewrite Hp in Hin. by rewrite Hin, Hs.
  - destruct (m !! prefix w x) as [e|] eqn:Hl; [|done]. destruct (same_id e x) eqn:Hs; [|done].
    exfalso. destruct (gi_ok _ _ _ HG _ _ Hl) as [Hq _]. rewrite Hq in Hl. apply He, elem_of_list_In in Hl.
    pose proof (find_none _ _ Hf _ Hl) as H. cbn in H. by rewrite Hs in H.
Qed.

Lemma get_spec x : gid_ok c x ->
  g_get g x = match lookup_id c m x with Some e => Ok e | None => Err ENotFound end.
Proof.
  intros Hx. unfold g_get.
  destruct (g_for_fold (fun it _ =>
            do v <- it_entry g it;
            do e <- non_nil v;
            if (te_id e =? i_id x) && (te_len e =? i_len x) then Ok (Some e, true) else Ok (None, false))
    (fun vs _ => match vs with
                 | [] => Panic
                 | v :: _ => do e <- non_nil v; if same_id e x then Ok (Some e, true) else Ok (None, false)
                 end) None) as (es & He & ->).
  { intros it vs a Hv. unfold it_entry. rewrite Hv. cbn [rbind]. by destruct vs. }
  rewrite (fold_find _ (fun e => same_id e x)).
  - cbn [rbind]. by rewrite (find_entries es x He Hx).
  - intros e _. cbn [non_nil rbind]. by destruct (same_id e x).
Qed.

Lemma get_all_spec : exists es, entries m es /\ g_get_all g = Ok (Some <$> es).
Proof.
  unfold g_get_all.
  destruct (g_for_fold (fun it es => do v <- it_entry g it; Ok (es ++ [v], false))
    (fun vs acc => match vs with [] => Panic | v :: _ => Ok (acc ++ [v], false) end) []) as (es & He & ->).
  { intros it vs a Hv. unfold it_entry. rewrite Hv. cbn [rbind]. by destruct vs. }
  exists es. split; [done|]. rewrite (fold_collect _ (fun _ => true)) by done. cbn [app]. do 2 f_equal.
  clear. induction es as [|e es IH]; [done|]. cbn. by f_equal.
Qed.

Lemma Size_spec : exists es, entries m es /\ g_Size g = Ok (N.of_nat (length es)).
Proof.
  unfold g_Size. destruct (g_for_fold (fun _ n => Ok (n + 1, false)) (fun _ n => Ok (n + 1, false)) 0) as (es & He & ->);
    [done|].
  exists es. split; [done|]. by rewrite fold_count.
Qed.

Lemma get_by_label_spec sel : exists es, entries m es /\
  g_get_by_label g sel = Ok (Some <$> List.filter (fun e => sel (te_labels e)) es).
Proof.
  unfold g_get_by_label.
  destruct (g_for_fold (fun it es =>
    do v <- it_entry g it; do e <- non_nil v; Ok (if sel (te_labels e) then es ++ [v] else es, false))
    (fun vs acc => match vs with
      | [] => Panic
      | v :: _ => do e <- non_nil v; Ok (if sel (te_labels e) then acc ++ [v] else acc, false) end) [])
    as (es & He & ->).
  { intros it vs a Hv. unfold it_entry. rewrite Hv. cbn [rbind]. by destruct vs. }
  exists es. split; [done|]. by rewrite (fold_collect _ (fun e => sel (te_labels e))).
Qed.

(** Children and Parents. *)
Lemma related_spec (x : id) (rel : tentry L -> bool) (f : tentry L -> bool) :
  (forall e, gid_ok c (eid e) -> exists o, overlaps (gc_id c) (eid e) x = Ok o /\ o && f e = rel e) ->
  exists es, entries m es /\
    g_for g (fun it es =>
      do v <- it_entry g it;
      do e <- non_nil v;
      do o <- overlaps (gc_id c) (eid e) x;
      Ok (if o && f e then es ++ [v] else es, false)) [] = Ok (Some <$> List.filter rel es).
Proof.
  intros Hov.
  destruct (g_for_fold (fun it es =>
      do v <- it_entry g it;
      do e <- non_nil v;
      do o <- overlaps (gc_id c) (eid e) x;
      Ok (if o && f e then es ++ [v] else es, false))
    (fun vs acc => match vs with
      | [] => Panic
      | v :: _ => do e <- non_nil v; do o <- overlaps (gc_id c) (eid e) x;
                  Ok (if o && f e then acc ++ [v] else acc, false) end) [])
    as (es & He & ->).
  { intros it vs a Hv. unfold it_entry. rewrite Hv. cbn [rbind]. by destruct vs. }
  exists es. split; [done|]. rewrite (fold_collect _ rel); [done|].
  intros e acc Hin. cbn [non_nil rbind]. destruct (Hov e) as (o & -> & Ho); [by eapply entries_gid|].
  cbn [rbind]. by rewrite Ho.
Qed.
End Reads.
End Loop.
