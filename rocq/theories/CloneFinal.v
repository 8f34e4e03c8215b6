(** Trees in memory: after Clone, calls on one tree do not change another. *)
From Verif Require Export CloneSpec.
From Verif Require Import GTreeProofs IdProofs IdFinal IdSetSpec IdSetProofs IdSetFinal TreeFinal GTreeFinal.
From Verif Require Import TreeSim Tree64Proofs GTree64Proofs Tree64Spec.
From Verif Require Import TreeInv TreeIter TreeMain TreeSpec GTreeSpec GTreeLoop TreeModel GTreeModel.
From Coq Require Import Lia ZifyBool ZifyNat ZifyN.
Local Open Scope N_scope.

Section Sep.
Context {T A O R : Type} (f : A * tree T -> O -> res (tree T * R)).
Notation W := (world (T := T) (A := A)).

(** Every address is that of an object, and no two trees have one in common. *)
Definition here (m : mem T) (o : tobj) : Prop :=
  is_Some (m_nodes m !! o_nodes o) /\ is_Some (m_avail m !! o_avail o) /\ is_Some (m_vals m !! o_vals o) /\
  o_nodes o < m_next m /\ o_avail o < m_next m /\ o_vals o < m_next m.
Definition apart (o o' : tobj) : Prop :=
  o_nodes o <> o_nodes o' /\ o_avail o <> o_avail o' /\ o_vals o <> o_vals o'.
Record Sep (w : W) : Prop := MkSep {
  sp_here : forall i a o, snd w !! i = Some (a, o) -> here (fst w) o;
  sp_apart : forall i j a o a' o', snd w !! i = Some (a, o) -> snd w !! j = Some (a', o') -> i <> j -> apart o o' }.

Lemma here_load m o : here m o -> exists s, load m o = Ok s.
Proof. intros ((ns & Hn) & (av & Ha) & (vs & Hv) & _). unfold load. rewrite Hn, Ha, Hv. by eexists. Qed.

Lemma load_store_same (m : mem T) o s : let '(m', o') := store m o s in load m' o' = Ok s.
Proof. unfold store, load. cbn. rewrite !lookup_insert. by destruct s. Qed.
Lemma load_store_other (m : mem T) o s o' : here m o' -> apart o' o -> let '(m', _) := store m o s in load m' o' = load m o'.
Proof.
  intros (_ & _ & _ & Hn & _) (H1 & H2 & H3). unfold store, load. cbn.
  rewrite !lookup_insert_ne; [done|done|done|]. destruct ((t_gen s =? o_gen o) && (t_cap s =? o_cap o)); [done|lia].
Qed.
Lemma here_store (m : mem T) o s : here m o -> let '(m', o') := store m o s in here m' o'.
Proof.
  intros (_ & _ & _ & Hn & Ha & Hv). unfold store, here. cbn. rewrite !lookup_insert.
  split; [by eexists|]. split; [by eexists|]. split; [by eexists|]. destruct ((t_gen s =? o_gen o) && (t_cap s =? o_cap o)); lia.
Qed.
Lemma here_store_other (m : mem T) o s o' : here m o' -> apart o' o -> let '(m', _) := store m o s in here m' o'.
Proof.
  intros (H1 & H2 & H3 & Hn & Ha & Hv) (E1 & E2 & E3). unfold store, here. cbn.
  rewrite !lookup_insert_ne; [repeat split; try done; lia|done|done|]. destruct ((t_gen s =? o_gen o) && (t_cap s =? o_cap o)); [done|lia].
Qed.
Lemma apart_store (m : mem T) o s o' : here m o' -> apart o' o -> let '(_, o1) := store m o s in apart o' o1 /\ apart o1 o'.
Proof.
  intros (_ & _ & _ & Hn & _) (E1 & E2 & E3). unfold store, apart. cbn.
  destruct ((t_gen s =? o_gen o) && (t_cap s =? o_cap o)); repeat split; try done; lia.
Qed.

Lemma Sep_start a s : Sep (m_start a s).
Proof.
  unfold m_start, alloc. cbn. split.
  - intros i a' o H. destruct i as [|i]; [|done]. injection H as <- <-. unfold here. cbn. rewrite !lookup_insert.
    repeat split; try (by eexists); lia.
  - intros i j a1 o a2 o' H1 H2 Hne. destruct i as [|i], j as [|j]; done.
Qed.

Lemma step_sep w k : Sep w -> Sep (fst (m_step f w k)) /\ snd (m_step f w k) <> MWild /\
  (forall j, spares j k -> j < length (snd w) -> contents (fst (m_step f w k)) j = contents w j)%nat.
Proof.
  intros [Hh Ha]. destruct w as [m os]. cbn [fst snd] in *. destruct k as [i o junk|i]; cbn [m_step fst snd spares].
  - destruct (os !! i) as [[a ob]|] eqn:Hi; [|done]. cbn [fst snd].
    destruct (here_load m ob (Hh _ _ _ Hi)) as [s ->]. 
    destruct (match f (a, s) o with Ok (s', r) => (s', Ok r) | Err e => (s, Err e) | Panic => (junk, Panic) end) as [s' r].
    pose proof (here_store m ob s' (Hh _ _ _ Hi)) as H1.
    pose proof (fun o' => here_store_other m ob s' o') as H2. pose proof (fun o' => apart_store m ob s' o') as H3.
    pose proof (fun o' => load_store_other m ob s' o') as H4.
    destruct (store m ob s') as [m' ob']. cbn [fst snd]. split; [|split; [done|]].
    + split; cbn [fst snd].
      * intros j a1 o1 Hj. destruct (decide (i = j)) as [<-|Hne].
        -- rewrite list_lookup_insert in Hj by (by eapply lookup_lt_Some). by injection Hj as <- <-.
        -- rewrite list_lookup_insert_ne in Hj by done. apply H2; [by eapply Hh|]. by eapply (Ha j i).
      * intros j k a1 o1 a2 o2 Hj Hk Hjk.
        assert (Hlt : (i < length os)%nat) by (by eapply lookup_lt_Some).
        destruct (decide (i = j)) as [<-|Hij].
        -- rewrite list_lookup_insert in Hj by done. injection Hj as <- <-.
           rewrite list_lookup_insert_ne in Hk by done. apply H3; [by eapply Hh|]. eapply (Ha k i); done.
        -- rewrite list_lookup_insert_ne in Hj by done. destruct (decide (i = k)) as [<-|Hik].
           ++ rewrite list_lookup_insert in Hk by done. injection Hk as <- <-.
              apply H3; [by eapply Hh|]. by eapply (Ha j i).
           ++ rewrite list_lookup_insert_ne in Hk by done. by eapply (Ha j k).
    + intros j Hj _. unfold contents. cbn [fst snd]. rewrite list_lookup_insert_ne by done.
      destruct (os !! j) as [[a1 o1]|] eqn:Hoj; [|done]. rewrite H4; [done|by eapply Hh|]. by eapply (Ha j i).
  - destruct (os !! i) as [[a ob]|] eqn:Hi; [|done]. pose proof (Hh _ _ _ Hi) as Hob.
    destruct Hob as ((ns & Hn) & (av & Hv) & (vs & Hs) & _). unfold o_clone. rewrite Hn, Hv, Hs. cbn [fst snd].
    set (m' := Mem _ _ _ _). set (ob' := TObj _ _ _ _ _ _ _ _).
    assert (Hother : forall j a1 o1, os !! j = Some (a1, o1) -> here m' o1 /\ load m' o1 = load m o1 /\ apart o1 ob' /\ apart ob' o1).
    { intros j a1 o1 Hj. destruct (Hh _ _ _ Hj) as (E1 & E2 & E3 & L1 & L2 & L3). unfold here, load, apart. cbn.
      rewrite !lookup_insert_ne by lia. repeat split; try done; lia. }
    assert (Hnew : here m' ob').
    { unfold here. cbn. rewrite !lookup_insert. repeat split; try (by eexists); lia. }
    split; [|split; [done|]].
    + split; cbn [fst snd].
      * intros j a1 o1 Hj. apply lookup_app_Some in Hj as [Hj|[Hlen Hj]]; [by eapply Hother|].
        apply list_lookup_singleton_Some in Hj as [_ [= <- <-]]. done.
      * intros j k a1 o1 a2 o2 Hj Hk Hjk.
        apply lookup_app_Some in Hj as [Hj|[Hlj Hj]]; apply lookup_app_Some in Hk as [Hk|[Hlk Hk]].
        -- by eapply (Ha j k).
        -- apply list_lookup_singleton_Some in Hk as [_ [= <- <-]]. by eapply Hother.
        -- apply list_lookup_singleton_Some in Hj as [_ [= <- <-]]. by eapply Hother.
        -- apply list_lookup_singleton_Some in Hj as [Hj _], Hk as [Hk _]. exfalso. lia.
    + intros j _ Hj. unfold contents. cbn [fst snd]. rewrite lookup_app_l by done.
      destruct (os !! j) as [[a1 o1]|] eqn:Hoj; [|done]. destruct (Hother _ _ _ Hoj) as (_ & -> & _). done.
Qed.

Lemma step_grow w k : (length (snd w) <= length (snd (fst (m_step f w k))))%nat.
Proof.
  destruct w as [m os], k as [i o junk|i]; cbn [m_step fst snd].
  - destruct (os !! i) as [[a ob]|]; [|done]. destruct (load m ob); cbn [fst snd]; [|done..].
    destruct (match f _ _ with Ok _ => _ | Err _ => _ | Panic => _ end) as [s' r]. destruct (store m ob s'). cbn. by rewrite insert_length.
  - destruct (os !! i) as [[a ob]|]; [|done]. destruct (o_clone m ob) as [[m' ob']| |]; cbn; [|done..]. rewrite app_length. lia.
Qed.

Lemma run_sep ks : forall w, Sep w -> Sep (fst (m_run f w ks)) /\ Forall (fun r => r <> MWild) (snd (m_run f w ks)) /\
  (forall j, Forall (spares j) ks -> (j < length (snd w))%nat -> contents (fst (m_run f w ks)) j = contents w j).
Proof.
  induction ks as [|k ks IH]; intros w Hw; [by split; [|split; [constructor|]]|].
  cbn [m_run]. destruct (step_sep w k Hw) as (H1 & H2 & H3). pose proof (step_grow w k) as Hg.
  destruct (m_step f w k) as [w1 r]. cbn [fst snd] in *. destruct (IH w1 H1) as (I1 & I2 & I3).
  destruct (m_run f w1 ks) as [w2 rs]. cbn [fst snd] in *. split; [done|]. split; [by constructor|].
  intros j Hj Hlt. apply Forall_cons in Hj as [Hj Hjs]. rewrite I3 by (done || lia). by apply H3.
Qed.

(** One step from the inside: a call works on the contents of its tree; Clone adds a
    tree with the same arrays, map and other fields. *)
Lemma step_contents w k : Sep w ->
  match k with
  | MCall i o junk => forall a s, contents w i = Some (Ok (a, s)) ->
      match f (a, s) o with
      | Ok (s', r) => snd (m_step f w k) = MRes (Ok r) /\ contents (fst (m_step f w k)) i = Some (Ok (a, s'))
      | Err e => snd (m_step f w k) = MRes (Err e) /\ contents (fst (m_step f w k)) i = Some (Ok (a, s))
      | Panic => snd (m_step f w k) = MRes Panic
      end
  | MClone i => forall a s, contents w i = Some (Ok (a, s)) ->
      snd (m_step f w k) = MCloned /\ contents (fst (m_step f w k)) (length (snd w)) = Some (Ok (a, clone s))
  end.
Proof.
  intros [Hh Ha]. destruct w as [m os], k as [i o junk|i]; cbn [m_step fst snd] in *; intros a s; unfold contents; cbn [fst snd];
    destruct (os !! i) as [[a1 ob]|] eqn:Hi; try done.
  - destruct (load m ob) as [s1| |]; cbn [rbind]; try done. intros [= <- <-].
    pose proof (fun s' => load_store_same m ob s') as Hl.
    destruct (f (a1, s1) o) as [[s' r]| |].
    + specialize (Hl s'). destruct (store m ob s') as [m' ob']. cbn [fst snd].
      rewrite list_lookup_insert by (by eapply lookup_lt_Some). by rewrite Hl.
    + specialize (Hl s1). destruct (store m ob s1) as [m' ob']. cbn [fst snd].
      rewrite list_lookup_insert by (by eapply lookup_lt_Some). by rewrite Hl.
    + destruct (store m ob junk) as [m' ob']. done.
  - unfold load, o_clone. destruct (m_nodes m !! o_nodes ob) as [ns|]; cbn [rbind]; [|done].
    destruct (m_avail m !! o_avail ob) as [av|]; cbn [rbind]; [|done].
    destruct (m_vals m !! o_vals ob) as [vs|]; cbn [rbind]; [|done]. intros [= <- <-]. cbn [fst snd]. split; [done|].
    rewrite lookup_app_r, Nat.sub_diag by done. cbn [lookup list_lookup]. cbn. by rewrite !lookup_insert.
Qed.
End Sep.

(* ------------------------------------------------------------------ C36 *)
(** Independence of clones: whatever trees have been cloned from a new tree and
    from its clones, and whatever was called on them, further calls on other trees,
    and further Clones of any tree, do not change a tree at all. *)
Lemma C36_clones_are_independent_partial_pf : forall (T : Type) (zero : T) (c : idcfg) (ks1 ks2 : list mcmd) (j : nat),
  let w1 := fst (m_run (tree_calls zero c) (m_start () (tree_zero c)) ks1) in
  let w2 := fst (m_run (tree_calls zero c) w1 ks2) in
  (j < length (snd w1))%nat -> Forall (spares j) ks2 ->
  contents w2 j = contents w1 j /\ (exists s, contents w1 j = Some (Ok ((), s))) /\
  Forall (fun r => r <> MWild) (snd (m_run (tree_calls zero c) w1 ks2)).
Proof.
  intros T zero c ks1 ks2 j w1 w2 Hj Hsp.
  destruct (run_sep (tree_calls zero c) ks1 _ (Sep_start () (tree_zero c))) as (H1 & _). fold w1 in H1.
  destruct (run_sep (tree_calls zero c) ks2 w1 H1) as (_ & H3 & H2). split; [by apply H2|]. split; [|done].
  unfold contents. destruct (lookup_lt_is_Some_2 _ _ Hj) as [[[] o] Ho]. rewrite Ho.
  destruct (here_load _ _ (sp_here _ H1 _ _ _ Ho)) as [s ->]. by exists s.
Qed.

(** What Clone copies, and what a call on one of the trees does: the same as on a
    tree that was never cloned and has the same contents. *)
Lemma C36_clone_copies_partial_pf : forall (T : Type) (zero : T) (c : idcfg) (ks : list mcmd) (i : nat) s,
  let w := fst (m_run (tree_calls zero c) (m_start () (tree_zero c)) ks) in
  contents w i = Some (Ok ((), s)) ->
  (let '(w', r) := m_step (tree_calls zero c) w (MClone i) in
   r = MCloned /\ contents w' (length (snd w)) = Some (Ok ((), clone s)) /\ contents w' i = Some (Ok ((), s))) /\
  forall o junk s' x, t_step zero c s o = Ok (s', x) ->
    let '(w', r) := m_step (tree_calls zero c) w (MCall i o junk) in
    r = MRes (Ok x) /\ contents w' i = Some (Ok ((), s')).
Proof.
  intros T zero c ks i s w Hi.
  destruct (run_sep (tree_calls zero c) ks _ (Sep_start () (tree_zero c))) as (H1 & _). fold w in H1.
  assert (Hlt : (i < length (snd w))%nat).
  { unfold contents in Hi. destruct (snd w !! i) eqn:E; [by eapply lookup_lt_Some|done]. }
  split.
  - destruct (step_contents (tree_calls zero c) w (MClone i) H1 _ _ Hi) as [E1 E2].
    destruct (step_sep (tree_calls zero c) w (MClone i) H1) as (_ & _ & E3).
    specialize (E3 i I Hlt). destruct (m_step _ w (MClone i)) as [w' r]. cbn [fst snd] in *. by rewrite E3.
  - intros o junk s' x Hs. pose proof (step_contents (tree_calls zero c) w (MCall i o junk) H1 _ _ Hi) as E.
    unfold tree_calls at 1 in E. cbn [snd] in E. rewrite Hs in E.
    destruct (m_step _ w (MCall i o junk)) as [w' r]. done.
Qed.

(* ------------------------------------------------------------------ C60 *)
(** The same for tree16, tree32 and tree64. *)
Lemma C60_clones_are_independent_partial_pf : forall (L : Type) (lstr : L -> string) (c : gcfg) (n : N) (g : gtree L)
    (ks1 ks2 : list mcmd) (j : nat),
  g_new c n = Ok g ->
  let w1 := fst (m_run (gtree_calls lstr c) (m_start (g_size g, g_length g) (g_tree g)) ks1) in
  let w2 := fst (m_run (gtree_calls lstr c) w1 ks2) in
  (j < length (snd w1))%nat -> Forall (spares j) ks2 ->
  contents w2 j = contents w1 j /\ (exists a s, contents w1 j = Some (Ok (a, s))) /\
  Forall (fun r => r <> MWild) (snd (m_run (gtree_calls lstr c) w1 ks2)).
Proof.
  intros L lstr c n g ks1 ks2 j _ w1 w2 Hj Hsp.
  destruct (run_sep (gtree_calls lstr c) ks1 _ (Sep_start (g_size g, g_length g) (g_tree g))) as (H1 & _). fold w1 in H1.
  destruct (run_sep (gtree_calls lstr c) ks2 w1 H1) as (_ & H3 & H2). split; [by apply H2|]. split; [|done].
  unfold contents. destruct (lookup_lt_is_Some_2 _ _ Hj) as [[a o] Ho]. rewrite Ho.
  destruct (here_load _ _ (sp_here _ H1 _ _ _ Ho)) as [s ->]. by exists a, s.
Qed.

(** The same for the copies of tree16, tree32 and tree64. *)
Lemma C60_clone_copies_partial_pf : forall (L : Type) (lstr : L -> string) (c : gcfg) (n : N) (g0 : gtree L)
    (ks : list mcmd) (i : nat) (g : gtree L),
  g_new c n = Ok g0 ->
  let w := fst (m_run (gtree_calls lstr c) (m_start (g_size g0, g_length g0) (g_tree g0)) ks) in
  let is w k (g : gtree L) := contents w k = Some (Ok ((g_size g, g_length g), g_tree g)) in
  is w i g ->
  (let '(w', r) := m_step (gtree_calls lstr c) w (MClone i) in
   r = MCloned /\ is w' (length (snd w)) (g_clone g) /\ is w' i g) /\
  forall o junk g' x, g_step lstr c g o = Ok (g', x) ->
    let '(w', r) := m_step (gtree_calls lstr c) w (MCall i o junk) in
    r = MRes (Ok x) /\ contents w' i = Some (Ok ((g_size g, g_length g), g_tree g')).
Proof.
  intros L lstr c n g0 ks i g _ w is Hi. unfold is in *.
  destruct (run_sep (gtree_calls lstr c) ks _ (Sep_start (g_size g0, g_length g0) (g_tree g0))) as (H1 & _). fold w in H1.
  assert (Hlt : (i < length (snd w))%nat).
  { unfold contents in Hi. destruct (snd w !! i) eqn:E; [by eapply lookup_lt_Some|done]. }
  split.
  - destruct (step_contents (gtree_calls lstr c) w (MClone i) H1 _ _ Hi) as [E1 E2].
    destruct (step_sep (gtree_calls lstr c) w (MClone i) H1) as (_ & _ & E3).
    specialize (E3 i I Hlt). destruct (m_step _ w (MClone i)) as [w' r]. cbn [fst snd] in *. by rewrite E3.
  - intros o junk g' x Hs. pose proof (step_contents (gtree_calls lstr c) w (MCall i o junk) H1 _ _ Hi) as E.
    unfold gtree_calls at 1 in E. cbn [fst snd] in E.
    assert (Hg : GTree (g_tree g) (g_size g) (g_length g) = g) by (by destruct g). rewrite Hg, Hs in E.
    destruct (m_step _ w (MCall i o junk)) as [w' r]. done.
Qed.

(** Loops over the stops of a copy. *)
Section Blind.
Context {L : Type}.
Notation val := (option (tentry L)).

Lemma fold_nil_panics {A} (fb : list val -> A -> res (A * bool)) k a :
  (forall a, fb [None] a = Panic) -> k <> O -> fold_body fb (replicate k [None]) a = Panic.
Proof. intros H Hk. destruct k; [done|]. cbn [replicate fold_body]. by rewrite H. Qed.
Lemma fold_nil_collects (fb : list val -> list val -> res (list val * bool)) k : forall a,
  (forall a, fb [None] a = Ok (a ++ [None], false)) -> fold_body fb (replicate k [None]) a = Ok (a ++ replicate k None).
Proof.
  induction k as [|k IH]; intros a H; cbn [replicate fold_body]; [by rewrite app_nil_r|].
  rewrite H. cbn [rbind fst snd]. rewrite IH by done. by rewrite <- app_assoc.
Qed.

Lemma clone_for (c : gcfg) (n : N) (m : record L) (g : gtree L) {A : Type} (body : TreeModel.iter -> A -> res (A * bool)) fb a :
  c ∈ g_packages_16_32 -> g_hist any_op c n m g -> t_n (g_tree g) + 1 <= 2 ^ id_w (gc_id c) ->
  (forall it vs a, iter_vals None (g_tree (g_clone g)) it = Ok vs -> body it a = fb vs a) ->
  exists es, entries c m es /\ g_for (g_clone g) body a = fold_body fb (replicate (length es) [None]) a.
Proof.
  intros Hc Hh Hn Hb. pose proof (hist_G c Hc _ n m g Hh) as HG.
  destruct (wide_16_32 val _ (gpack c Hc)) as [Hwide Hw].
  destruct (GInv_entries c n m g HG) as (es & it1 & Hl1 & He).
  destruct (gi_tree _ _ _ _ HG) as [t Ht]. pose proof (Iv_inv _ _ _ _ _ Ht) as Hi.
  pose proof (rep_links None (gc_id c) (g_tree g) 1 t (iv_rep _ _ _ _ Hi)) as Hl.
  destruct (clone_stops None (gc_id c) (g_tree g) 1 t Hl) as (vss' & V1 & V2 & V3).
  destruct (iter_inv None (gc_id c) (g_tree g) t Hi) as (I1 & _ & _).
  rewrite I1 in Hl1. injection Hl1 as Hv _.
  destruct (iter_links None (clone (g_tree g)) t vss') as (J & _ & _); [by apply links_clone| |apply Hi| |done|].
  { intros ->. by apply (iv_wf _ _ _ _ Hi). }
  { pose proof (iv_cnt _ _ _ _ Hi). cbn [clone t_n]. lia. }
  exists es. split; [done|]. unfold g_for.
  change (g_tree (g_clone g)) with (clone (g_tree g)) in *.
  rewrite (g_loop_spec (g_clone g) body fb Hb _ _ vss' _ a J). f_equal.
  assert (Hz : Forall (Forall (eq None)) vss').
  { apply (V3 1); [done| | | |].
    - unfold g_packages_16_32 in Hc. clear -Hc. apply elem_of_cons in Hc as [->|Hc]; [done|].
      by apply elem_of_list_singleton in Hc as ->.
    - by apply (Iv_low _ _ _ _ _ Ht).
    - intros j Hj. apply (rep_dom None (gc_id c) (g_tree g) _ _ j (iv_rep _ _ _ _ Hi)) in Hj as (Hj & _).
      by apply (ao_dom _ _ (iv_alloc _ _ _ _ Hi)).
    - intros l. rewrite Hv. intros Hin. apply elem_of_list_fmap in Hin as (e & -> & _). cbn. lia. }
  rewrite Hv in V2. clear -V2 Hz. revert es V2. induction Hz as [|vs vss Hvs _ IH]; intros es H.
  - by destruct es.
  - destruct es as [|e es]; [done|]. cbn in H. injection H as H1 H2. cbn. f_equal; [|by apply IH].
    destruct vs as [|v [|]]; try done. apply Forall_cons in Hvs as [<- _]. done.
Qed.
End Blind.

(** What the copy answers in general, while the copied tree has fewer than 2^w
    nodes: GetAll gives as many entries as on the original, all of them nil, so every
    call that looks at the entries panics, unless there are none. *)
Lemma C60_clone_reads_characterised_pf : forall (L : Type) (c : gcfg) (n : N) (m : record L) (g : gtree L) es,
  c ∈ g_packages_16_32 -> g_hist any_op c n m g -> t_n (g_tree g) + 1 <= 2 ^ id_w (gc_id c) ->
  g_get_all g = Ok es ->
  g_get_all (g_clone g) = Ok (replicate (length es) None) /\
  (es <> [] ->
   (forall x, g_get (g_clone g) x = Panic) /\
   (forall sel, g_get_by_label (g_clone g) sel = Panic) /\
   (forall x, g_children c (g_clone g) x = Panic) /\ (forall x, g_parents c (g_clone g) x = Panic) /\
   (forall lstr x, i_id x <= g_size g -> g_step lstr c (g_clone g) (GReleaseID x) = Panic) /\
   (forall lstr sel, g_step lstr c (g_clone g) (GReleaseByLabel sel) = Panic) /\
   (forall lstr l, g_step lstr c (g_clone g) (GClaimFree l) = Panic)).
Proof.
  intros L c n m g es Hc Hh Hn Hall.
  destruct (get_all_spec c n m g (hist_G c Hc _ n m g Hh)) as (es0 & He0 & Hall0).
  rewrite Hall in Hall0. injection Hall0 as ->. rewrite fmap_length.
  assert (Hlen : forall es1, entries c m es1 -> length es1 = length es0).
  { intros es1 He1. by rewrite (entries_unique c m es1 es0 He1 He0). }
  split.
  { unfold g_get_all.
    destruct (clone_for c n m g (fun it es => do v <- it_entry (g_clone g) it; Ok (es ++ [v], false))
      (fun vs acc => match vs with [] => Panic | v :: _ => Ok (acc ++ [v], false) end) [] Hc Hh Hn) as (es1 & He1 & ->).
    { intros it vs a Hv. unfold it_entry. rewrite Hv. cbn [rbind]. by destruct vs. }
    rewrite fold_nil_collects by done. by rewrite (Hlen es1 He1). }
  intros Hne. assert (Hk : length es0 <> O) by (by destruct es0).
  assert (Hp : forall (A : Type) (k : option (tentry L) -> tentry L -> A -> res (A * bool)) a,
    g_for (g_clone g) (fun it a => do v <- it_entry (g_clone g) it; do e <- non_nil v; k v e a) a = Panic).
  { intros A k a.
    destruct (clone_for c n m g (fun it a => do v <- it_entry (g_clone g) it; do e <- non_nil v; k v e a)
      (fun vs a => match vs with [] => Panic | v :: _ => do e <- non_nil v; k v e a end) a Hc Hh Hn) as (es1 & He1 & ->).
    { intros it vs b Hv. unfold it_entry. rewrite Hv. cbn [rbind]. by destruct vs. }
    apply fold_nil_panics; [done|]. by rewrite (Hlen es1 He1). }
  assert (Hget : forall x, g_get (g_clone g) x = Panic).
  { intros x. unfold g_get.
    by rewrite (Hp _ (fun _ e _ => if (te_id e =? i_id x) && (te_len e =? i_len x) then Ok (Some e, true) else Ok (None, false)) None). }
  assert (Hlab : forall sel, g_get_by_label (g_clone g) sel = Panic).
  { intros sel. unfold g_get_by_label.
    by rewrite (Hp _ (fun v e es => Ok (if sel (te_labels e) then es ++ [v] else es, false)) []). }
  assert (Hch : forall x, g_children c (g_clone g) x = Panic).
  { intros x. unfold g_children.
    by rewrite (Hp _ (fun v e es => do o <- overlaps (gc_id c) (eid e) x; Ok (if o && (i_len x <? te_len e) then es ++ [v] else es, false)) []). }
  split; [done|]. split; [done|]. split; [done|]. split; [|split; [|split]].
  - intros x. unfold g_parents.
    by rewrite (Hp _ (fun v e es => do o <- overlaps (gc_id c) (eid e) x; Ok (if o && (te_len e <? id_w (gc_id c)) then es ++ [v] else es, false)) []).
  - intros lstr x Hx. cbn [g_step]. unfold g_release_id, g_validate. change (g_size (g_clone g)) with (g_size g).
    rewrite (proj2 (N.ltb_ge _ _) Hx). cbn [rbind]. by rewrite Hget.
  - intros lstr sel. cbn [g_step]. unfold g_release_by_label. by rewrite Hlab.
  - intros lstr l. cbn [g_step]. unfold g_claim_free, g_find_free. set (root := MyId 0 _).
    assert (Hadd : match add_id (gc_id c) builder_zero root with Err _ => False | _ => True end).
    { unfold add_id, range_of_id, id_masked.
      destruct (id_mask (gc_id c) root) as [y| |]; cbn [rbind]; [|done..].
      unfold add_range. cbn. by destruct (is_valid _). }
    destruct (add_id (gc_id c) builder_zero root); cbn [rbind]; [|done..]. by rewrite Hch.
Qed.
(** The nodes of a tree: a set adds at most two, a deletion none. *)
Section Few.
Context {T : Type} (zero : T).
Ltac step H :=
  match type of H with
  | Ok _ = Ok _ => injection H; clear H; intros; subst
  | Panic = Ok _ => discriminate H
  | Err _ = Ok _ => discriminate H
  | context [rbind ?e _] => let E := fresh "E" in destruct e eqn:E; cbn [rbind] in H; [|discriminate H|discriminate H]
  | context [if ?b then _ else _] => destruct b
  end.
Lemma upd_n (s s' : tree T) i f : upd_node s i f = Ok s' -> t_n s' = t_n s.
Proof. unfold upd_node. destruct (get_node s i); cbn [rbind]; [|done..]. by intros [= <-]. Qed.
Lemma add_val_n s v i mf uf (a : tree T * bool) : add_val zero s v i mf uf = Ok a -> t_n (fst a) = t_n s.
Proof.
  unfold add_val. intros H. destruct (get_node s i) as [nd| |]; cbn [rbind] in H; [|done..].
  destruct (match mf with None => None | Some m => find_match zero s m v i 0 (N.to_nat (n_cnt nd)) end) as [k|].
  - injection H as <-. by destruct uf.
  - destruct (upd_node _ i _) as [s2| |] eqn:E; cbn [rbind] in H; [|done..]. injection H as <-. by apply upd_n in E.
Qed.
Lemma new_node_n (s : tree T) x l a : new_node s x l = Ok a -> t_n (fst a) <= t_n s + 1.
Proof.
  unfold new_node. destruct (t_avail s) as [|j av].
  - intros [= <-]. cbn. lia.
  - destruct (upd_node _ j _) as [s2| |] eqn:E; cbn [rbind]; [|done..]. intros [= <-]. apply upd_n in E. cbn in *. lia.
Qed.
Lemma replace_n (s s' : tree T) p i j : replace_child s p i j = Ok s' -> t_n s' = t_n s.
Proof. unfold replace_child. intros H. repeat step H; by apply upd_n in H. Qed.
Lemma add_leaf_n (s : tree T) p r x v mf uf a : add_leaf zero s p r x v mf uf = Ok a -> t_n (fst a) <= t_n s + 1.
Proof.
  unfold add_leaf. intros H.
  destruct (new_node s x (i_len x)) as [n1| |] eqn:E1; cbn [rbind] in H; [|done..].
  destruct (add_val zero (fst n1) v (snd n1) mf uf) as [b| |] eqn:E2; cbn [rbind] in H; [|done..].
  destruct (upd_node (fst b) p _) as [s1| |] eqn:E3; cbn [rbind] in H; [|done..].
  destruct (get_node s1 (snd n1)) as [nd| |]; cbn [rbind] in H; [|done..]. injection H as <-. cbn [fst].
  apply new_node_n in E1. apply add_val_n in E2. apply upd_n in E3. lia.
Qed.
Lemma add_loop_n c fuel : forall (s : tree T) p i x v mf uf a,
  add_loop zero c fuel s p i x v mf uf = Ok a -> t_n (fst a) <= t_n s + 2.
Proof.
  induction fuel as [|fuel IH]; intros s p i x v mf uf a H; cbn [add_loop] in H; [done|].
  destruct (i =? 0); [done|]. destruct (get_node s i) as [nd| |]; cbn [rbind] in H; [|done..].
  destruct (n_len nd =? 0); [done|]. cbn zeta in H. destruct (match_count c nd x =? 0); [done|].
  destruct (match_count c nd x =? i_len x); [destruct (match_count c nd x =? n_len nd)|
    destruct (match_count c nd x =? n_len nd); [destruct (negb _); [destruct (n_left nd =? 0)|destruct (n_right nd =? 0)]|]].
  - destruct (add_val zero s v i mf uf) as [b| |] eqn:E; cbn [rbind] in H; [|done..].
    destruct (get_node (fst b) i); cbn [rbind] in H; [|done..]. injection H as <-. cbn. apply add_val_n in E. lia.
  - destruct (new_node s x (i_len x)) as [n1| |] eqn:E1; cbn [rbind] in H; [|done..].
    destruct (add_val zero (fst n1) v (snd n1) mf uf) as [b| |] eqn:E2; cbn [rbind] in H; [|done..].
    destruct (upd_node (fst b) i _) as [s1| |] eqn:E3; cbn [rbind] in H; [|done..].
    destruct (get_node s1 i) as [nd'| |]; cbn [rbind] in H; [|done..].
    destruct (left_bit s1 (n_id nd')) as [lb| |]; cbn [rbind] in H; [|done..].
    destruct (upd_node s1 (snd n1) _) as [s2| |] eqn:E4; cbn [rbind] in H; [|done..].
    destruct (replace_child s2 p i (snd n1)) as [s3| |] eqn:E5; cbn [rbind] in H; [|done..].
    destruct (get_node s3 (snd n1)) as [ndj| |]; cbn [rbind] in H; [|done..]. injection H as <-. cbn [fst].
    apply new_node_n in E1. apply add_val_n in E2. apply upd_n in E3, E4. apply replace_n in E5. lia.
  - apply add_leaf_n in H. lia.
  - by apply IH in H.
  - apply add_leaf_n in H. lia.
  - by apply IH in H.
  - destruct (new_node s x (match_count c nd x)) as [n1| |] eqn:E1; cbn [rbind] in H; [|done..].
    set (x' := shift_left c x (match_count c nd x)) in *.
    destruct (new_node (fst n1) x' (i_len x')) as [n2| |] eqn:E0; cbn [rbind] in H; [|done..].
    destruct (add_val zero (fst n2) v (snd n2) mf uf) as [b| |] eqn:E2; cbn [rbind] in H; [|done..].
    destruct (upd_node (fst b) i _) as [s1| |] eqn:E3; cbn [rbind] in H; [|done..].
    destruct (get_node s1 i) as [nd'| |]; cbn [rbind] in H; [|done..].
    destruct (left_bit s1 (n_id nd')) as [lb| |]; cbn [rbind] in H; [|done..].
    destruct (upd_node s1 (snd n1) _) as [s2| |] eqn:E4; cbn [rbind] in H; [|done..].
    destruct (replace_child s2 p i (snd n1)) as [s3| |] eqn:E5; cbn [rbind] in H; [|done..].
    destruct (get_node s3 (snd n2)) as [ndj| |]; cbn [rbind] in H; [|done..]. injection H as <-. cbn [fst].
    apply new_node_n in E1, E0. apply add_val_n in E2. apply upd_n in E3, E4. apply replace_n in E5. lia.
Qed.
Lemma Set_n c (s : tree T) x v a : tree_Set zero c s x v = Ok a -> t_n (fst a) <= t_n s + 2.
Proof.
  unfold tree_Set, tree_add. intros H. assert (Hr : t_n (reserve s) = t_n s) by (unfold reserve; by destruct (_ <? _)).
  rewrite <- Hr. set (s0 := reserve s) in *. clearbody s0. cbn zeta in H.
  destruct (get_node s0 1) as [root| |]; cbn [rbind] in H; [|done..].
  destruct (i_len x =? 0); [|destruct (negb _); [destruct (n_left root =? 0)|destruct (n_right root =? 0)]].
  - destruct (add_val zero s0 v 1 _ _) as [b| |] eqn:E; cbn [rbind] in H; [|done..].
    destruct (get_node (fst b) 1); cbn [rbind] in H; [|done..]. injection H as <-. cbn [fst]. apply add_val_n in E. lia.
  - apply add_leaf_n in H. lia.
  - by apply add_loop_n in H.
  - apply add_leaf_n in H. lia.
  - by apply add_loop_n in H.
Qed.

Lemma move_loop_n n : forall (s : tree T) a b k, t_n (move_loop zero s a b k n) = t_n s.
Proof. induction n as [|n IH]; intros s a b k; cbn [move_loop]; [done|]. by rewrite IH. Qed.
Lemma move_tags_n (s s' : tree T) a b : move_tags zero s a b = Ok s' -> t_n s' = t_n s.
Proof.
  unfold move_tags. intros H. destruct (get_node s a) as [na| |]; cbn [rbind] in H; [|done..]. cbn zeta in H.
  destruct (upd_node _ b _) as [s2| |] eqn:E; cbn [rbind] in H; [|done..]. apply upd_n in E, H. by rewrite H, E, move_loop_n.
Qed.
Lemma delete_slots_n n : forall (s : tree T) i k, t_n (delete_slots s i k n) = t_n s.
Proof. induction n as [|n IH]; intros s i k; cbn [delete_slots]; [done|]. by rewrite IH. Qed.
Lemma put_back_n i mf v buf : forall (s : tree T) d k a, put_back zero s i mf v buf d k = Ok a -> t_n (fst a) = t_n s.
Proof.
  induction buf as [|t buf IH]; intros s d k a H; cbn [put_back] in H; [by injection H as <-|].
  destruct (mf t v); [by eapply IH|]. destruct (add_val zero s t i _ _) as [b| |] eqn:E; cbn [rbind] in H; [|done..].
  apply IH in H. apply add_val_n in E. congruence.
Qed.
Lemma delete_val_n (s : tree T) i v mf a : delete_val zero s i v mf = Ok a -> t_n (fst a) = t_n s.
Proof.
  unfold delete_val. intros H. destruct (vals_for_node zero s i) as [buf| |]; cbn [rbind] in H; [|done..].
  destruct buf as [|t buf]; [by injection H as <-|]. destruct (get_node s i) as [nd| |]; cbn [rbind] in H; [|done..]. cbn zeta in H.
  destruct (upd_node _ i _) as [s2| |] eqn:E; cbn [rbind] in H; [|done..]. apply put_back_n in H. apply upd_n in E.
  by rewrite H, E, delete_slots_n.
Qed.
Lemma lift_n (s s' : tree T) t p ch : lift_child s t p ch = Ok s' -> t_n s' = t_n s.
Proof.
  unfold lift_child. intros H. destruct (get_node s p) as [pn| |]; cbn [rbind] in H; [|done..].
  destruct (upd_node s p _) as [s1| |] eqn:E; cbn [rbind] in H; [|done..].
  destruct (get_node s1 t); cbn [rbind] in H; [|done..]. destruct (get_node s1 ch); cbn [rbind] in H; [|done..].
  destruct (merge_from_nodes _ _ _); cbn [rbind] in H; [|done..]. apply upd_n in E, H. congruence.
Qed.
Lemma merge_sib_n (s s' : tree T) p sb : merge_sibling zero s p sb = Ok s' -> t_n s' = t_n s.
Proof.
  unfold merge_sibling. intros H. destruct (get_node s p); cbn [rbind] in H; [|done..].
  destruct (get_node s sb); cbn [rbind] in H; [|done..]. destruct (merge_from_nodes _ _ _); cbn [rbind] in H; [|done..].
  destruct (upd_node s p _) as [s1| |] eqn:E1; cbn [rbind] in H; [|done..].
  destruct (move_tags zero s1 sb p) as [s2| |] eqn:E2; cbn [rbind] in H; [|done..].
  destruct (get_node s2 sb); cbn [rbind] in H; [|done..].
  destruct (upd_node s2 p _) as [s3| |] eqn:E3; cbn [rbind] in H; [|done..]. injection H as <-. cbn.
  apply upd_n in E1, E3. apply move_tags_n in E2. congruence.
Qed.
Lemma delete_node_n (s s' : tree T) t p : delete_node zero s t p = Ok s' -> t_n s' = t_n s.
Proof.
  unfold delete_node. intros H. destruct (t =? 1); [by injection H as <-|].
  destruct (get_node s t) as [tn| |]; cbn [rbind] in H; [|done..]. destruct (_ && _); [by injection H as <-|].
  match type of H with rbind ?e _ = _ => destruct e as [s1| |] eqn:E; cbn [rbind] in H; [|done..] end.
  destruct (upd_node s1 t _) as [s2| |] eqn:E2; cbn [rbind] in H; [|done..]. injection H as <-. cbn. apply upd_n in E2. rewrite E2.
  destruct (negb (n_left tn =? 0)); [by apply lift_n in E|]. destruct (negb (n_right tn =? 0)); [by apply lift_n in E|].
  destruct (get_node s p) as [pn| |]; cbn [rbind] in E; [|done..].
  destruct (n_left pn =? t); destruct (upd_node s p _) as [s3| |] eqn:E3; cbn [rbind] in E; try done; apply upd_n in E3;
    destruct (_ && _); [apply merge_sib_n in E; congruence|by injection E as <-|apply merge_sib_n in E; congruence|by injection E as <-].
Qed.
Lemma Delete_n c (s : tree T) x mf v a : tree_Delete zero c s x mf v = Ok a -> t_n (fst a) = t_n s.
Proof.
  unfold tree_Delete. intros H. destruct (get_node s 1) as [root| |]; cbn [rbind] in H; [|done..].
  match type of H with rbind ?e _ = _ => destruct e as [[[t p]|]| |]; cbn [rbind] in H; [| |done..] end; [|by injection H as <-].
  destruct (get_node s t) as [tn| |]; cbn [rbind] in H; [|done..]. destruct (n_cnt tn =? 0); [by injection H as <-|].
  destruct (delete_val zero s t v mf) as [[s1 [d k]]| |] eqn:E; cbn [rbind] in H; [|done..]. apply delete_val_n in E. cbn [fst] in E.
  destruct (0 <? k); [by injection H as <-|]. destruct (delete_node zero s1 t p) as [s2| |] eqn:E2; cbn [rbind] in H; [|done..].
  injection H as <-. cbn. apply delete_node_n in E2. congruence.
Qed.
End Few.

Section FewG.
Context {L : Type} (lstr : L -> string) (c : gcfg).
Lemma g_set_n (g g' : gtree L) x e : g_set c g x e = Ok g' -> t_n (g_tree g') <= t_n (g_tree g) + 2.
Proof.
  unfold g_set. intros H. destruct (tree_Set _ _ _ _ _) as [a| |] eqn:E; cbn [rbind] in H; [|done..]. injection H as <-.
  by apply Set_n in E.
Qed.
Lemma set_all_n ids l : forall g g' : gtree L, set_all c g ids l = Ok g' ->
  t_n (g_tree g') <= t_n (g_tree g) + 2 * N.of_nat (length ids).
Proof.
  induction ids as [|x ids IH]; intros g g' H; cbn [set_all length] in *; [injection H as <-; lia|].
  destruct (g_set c g x _) as [g1| |] eqn:E; cbn [rbind] in H; [|done..]. apply IH in H. apply g_set_n in E. lia.
Qed.
Lemma g_del_n (g g' : gtree L) x v : g_del lstr c g x v = Ok g' -> t_n (g_tree g') = t_n (g_tree g).
Proof.
  unfold g_del. intros H. destruct (tree_Delete _ _ _ _ _ _) as [a| |] eqn:E; cbn [rbind] in H; [|done..]. injection H as <-.
  by apply Delete_n in E.
Qed.
Lemma del_all_n es : forall g g' : gtree L, del_all lstr c g es = Ok g' -> t_n (g_tree g') = t_n (g_tree g).
Proof.
  induction es as [|v es IH]; intros g g' H; cbn [del_all] in *; [by injection H as <-|].
  destruct (non_nil v) as [e| |]; cbn [rbind] in H; [|done..].
  destruct (g_del lstr c g (eid e) v) as [g1| |] eqn:E; cbn [rbind] in H; [|done..]. apply IH in H. apply g_del_n in E. congruence.
Qed.
Lemma g_step_n (g g' : gtree L) o r : g_step lstr c g o = Ok (g', r) ->
  t_n (g_tree g') <= t_n (g_tree g) + 2 * N.of_nat (growth c o).
Proof.
  assert (Hd : forall e k, (forall g1, e = Ok g1 -> t_n (g_tree g1) <= t_n (g_tree g) + 2 * k) ->
    done_or_err g e = Ok (g', r) -> t_n (g_tree g') <= t_n (g_tree g) + 2 * k).
  { intros e k He H. destruct e; cbn in H; [injection H as <- _; by apply He|injection H as <- _; lia|done]. }
  destruct o as [x l|x l|l|s l|x|sel]; cbn [g_step growth]; [apply Hd|apply Hd| |apply Hd|apply Hd|apply Hd].
  - intros g1. unfold g_claim_id. destruct (g_validate g x); cbn [rbind]; [|done..]. intros H. apply g_set_n in H. lia.
  - intros g1. unfold g_update. destruct (g_validate g x); cbn [rbind]; [|done..]. intros H. apply g_set_n in H. lia.
  - unfold g_claim_free. destruct (g_find_free c g) as [v| |]; cbn [rbind]; [|intros [= <- _]; lia|done].
    destruct (g_set c g _ _) as [g1| |] eqn:E; cbn [rbind]; [|intros [= <- _]; lia|done]. intros [= <- _].
    apply g_set_n in E. lia.
  - intros g1. unfold g_claim_range, range_prefixes. destruct (parse_range _ s) as [r0| |]; cbn [rbind]; [|done..].
    destruct (range_ids _ r0) as [ids| |]; cbn [rbind]; [|done..]. apply set_all_n.
  - intros g1. unfold g_release_id. destruct (g_validate g x); cbn [rbind]; [|done..].
    destruct (g_get g x); [intros H; apply g_del_n in H; lia|intros [= <-]; lia|done].
  - intros g1. unfold g_release_by_label. destruct (g_get_by_label g sel); cbn [rbind]; [|done..].
    intros H. apply del_all_n in H. lia.
Qed.
End FewG.

(** The condition on the nodes: claims of k prefixes in all make at most 2k + 2 nodes,
    whatever is released in between. *)
Lemma C60_short_runs_have_few_nodes_pf : forall (L : Type) (lstr : L -> string) (c : gcfg) (n : N) (os : list (gop L)) g0 g rs,
  g_new c n = Ok g0 -> g_run lstr c g0 os = Ok (g, rs) ->
  t_n (g_tree g) <= 2 + 2 * N.of_nat (growth_all c os).
Proof.
  intros L lstr c n os g0 g rs H0 Hr.
  assert (Hs : t_n (g_tree g0) = 2).
  { unfold g_new in H0. destruct (_ <? _); [done|]. by injection H0 as <-. }
  enough (H : t_n (g_tree g) <= t_n (g_tree g0) + 2 * N.of_nat (growth_all c os)) by (by rewrite Hs in H).
  clear Hs H0. revert g0 rs Hr. induction os as [|o os IH]; intros g0 rs Hr; cbn [g_run] in Hr.
  - injection Hr as <- _. lia.
  - destruct (g_step lstr c g0 o) as [[g1 r]| |] eqn:E; cbn [rbind fst snd] in Hr; [|done..].
    destruct (g_run lstr c g1 os) as [[g2 rs2]| |] eqn:E2; cbn [rbind fst snd] in Hr; [|done..]. injection Hr as <- _.
    apply g_step_n in E. apply IH in E2.
    change (growth_all c (o :: os)) with (growth c o + growth_all c os)%nat. lia.
Qed.

(** tree64: the original keeps its one value at key 0, and the copy reads the keys
    from 1 on. *)
Section Blind64.
Context {T : Type} (zero : T).
Lemma clone_vals_sim cell (s : tree T) u i : Sim zero cell s u ->
  (forall i, is_Some (t_nodes s !! i) -> i < 2 ^ 64) ->
  rsim (fun a b => length a = length b /\ Forall (eq zero) a) (vals_for_node zero (clone s) i) (vals_for_node () u i).
Proof.
  intros H Hn. unfold vals_for_node. destruct (N.eqb_spec i 0) as [|Hi]; [by split|].
  unfold get_node. cbn [clone t_nodes]. rewrite (sm_nodes _ _ _ _ H).
  destruct (t_nodes s !! i) as [nd|] eqn:E; cbn [rbind rsim]; [|done].
  rewrite !fmap_length. split; [done|]. apply Forall_fmap, Forall_forall. intros k Hk. apply elem_of_seq in Hk. cbn.
  pose proof (sm_cnt _ _ _ _ H i nd E) as Hc. replace (N.of_nat k) with 0 by lia.
  assert (Hs : slot (clone s) i 0 = i).
  { unfold slot, key, uadd, ushl. cbn [clone t_length]. rewrite N.shiftl_0_r, N.add_0_r.
    assert (i < 2 ^ 64) by (apply Hn; by rewrite E). by rewrite !N.mod_small by (try apply N.mod_lt; done). }
  rewrite Hs. unfold val_at. cbn [clone t_vals]. by rewrite (sm_only _ _ _ _ H i Hi).
Qed.
Lemma clone_iter_sim cell (s : tree T) u fuel : Sim zero cell s u ->
  (forall i, is_Some (t_nodes s !! i) -> i < 2 ^ 64) -> forall it,
  rsim (fun a b => length <$> fst a = length <$> fst b /\ Forall (Forall (eq zero)) (fst a) /\ snd a = snd b)
    (iter_loop zero fuel (clone s) it) (iter_loop () fuel u it).
Proof.
  intros H Hn. induction fuel as [|fuel IH]; intros it; [done|]. cbn [iter_loop].
  assert (Hnext : forall f it, next_loop f (clone s) it = next_loop f s it).
  { induction f as [|f IHf]; intros it0; [done|]. cbn [next_loop].
    change (next_body (clone s) it0) with (next_body s it0).
    destruct (next_body s it0) as [[it' [b|]]| |]; cbn [rbind fst snd]; try done. }
  eapply (rsim_bind eq).
  { unfold iter_next. cbn [clone t_n]. rewrite (sm_n _ _ _ _ H), Hnext, (next_sim zero cell s u _ H). by destruct (next_loop _ u it). }
  intros x ? <-. apply rsim_if; [intros _|by intros _; cbn].
  eapply rsim_bind; [unfold iter_vals; by apply (clone_vals_sim cell)|]. intros a b [Hab Ha].
  eapply rsim_bind; [apply IH|]. intros r1 r2 (H1 & H2 & H3). cbn. rewrite Hab, H1. by split; [|split; [constructor|]].
Qed.
Lemma clone_cell (s : tree T) st : CInv zero s st -> t_n s <= 2 ^ 64 ->
  exists it, iter_loop zero (S (N.to_nat (t_n s))) (clone s) iterate = Ok (replicate (size (fst st)) [zero], it).
Proof.
  intros Hci Hn64. pose proof Hci as [_ (u & m & t & Hs & Hi & Hm)].
  destruct (iter_cell zero s st Hci) as (it0 & H0 & _).
  pose proof (iter_loop_sim zero (snd st) s u (S (N.to_nat (t_n s))) Hs iterate) as HA. rewrite H0 in HA.
  assert (Hdom : forall i, is_Some (t_nodes s !! i) -> i < 2 ^ 64).
  { intros i Hin. rewrite <- (sm_nodes _ _ _ _ Hs) in Hin.
    apply (ao_dom _ _ (iv_alloc _ _ _ _ (Iv_inv _ _ _ _ _ Hi))) in Hin. rewrite (sm_n _ _ _ _ Hs) in Hin. lia. }
  pose proof (clone_iter_sim (snd st) s u (S (N.to_nat (t_n s))) Hs Hdom iterate) as HB.
  destruct (iter_loop () _ u iterate) as [[vu itu]| |]; cbn [rsim fst snd] in HA; [|done..].
  destruct (iter_loop zero _ (clone s) iterate) as [[vss it]| |]; cbn [rsim fst snd] in HB; [|done..].
  exists it. do 2 f_equal. destruct HA as (A1 & _), HB as (B1 & B2 & _). rewrite <- A1 in B1.
  clear -B1 B2. revert vss B1 B2. induction (size (fst st)) as [|k IH]; intros [|vs vss] H1 H2; try done.
  cbn in *. injection H1 as H1 H1'. apply Forall_cons in H2 as [H2 H2'].
  destruct vs as [|v [|]]; try done. apply Forall_cons in H2 as [<- _]. f_equal. by apply IH.
Qed.
End Blind64.

(** The same for tree64, after every sequence of calls. *)
Lemma C60_tree64_clone_reads_characterised_pf : forall (L : Type) (lstr : L -> string) (n : N) (os : list (gop L)) st rs,
  n <= 64 -> Forall (gop_ok cfg_tree64) os -> one_run n (∅, None) os = Some (st, rs) ->
  exists g, (do g <- g_new cfg_tree64 n; g_run lstr cfg_tree64 g os) = Ok (g, rs) /\
   (t_n (g_tree g) <= 2 ^ 64 ->
    g_Size (g_clone g) = g_Size g /\
    g_get_all (g_clone g) = Ok (replicate (size (fst st)) None) /\
    (fst st <> ∅ ->
     (forall x, g_get (g_clone g) x = Panic) /\
     (forall sel, g_get_by_label (g_clone g) sel = Panic) /\
     (forall x, g_children cfg_tree64 (g_clone g) x = Panic) /\
     (forall x, g_parents cfg_tree64 (g_clone g) x = Panic) /\
     (forall x, i_id x <= g_size g -> g_step lstr cfg_tree64 (g_clone g) (GReleaseID x) = Panic) /\
     (forall sel, g_step lstr cfg_tree64 (g_clone g) (GReleaseByLabel sel) = Panic))).
Proof.
  intros L lstr n os st rs Hn Hok Hone. destruct (new_64 (L := L) n Hn) as (g0 & -> & H0). cbn [rbind].
  pose proof (run_64 lstr n os (∅, None) g0 H0 Hok) as Hr. rewrite Hone in Hr. destruct Hr as (g & Hg & HG).
  exists g. split; [done|]. intros Ht.
  destruct (clone_cell None (g_tree g) st (g6_tree _ _ _ HG) Ht) as (it & Hit).
  assert (Hfor : forall (A : Type) (body : TreeModel.iter -> A -> res (A * bool)) fb a,
    (forall it vs a, iter_vals None (g_tree (g_clone g)) it = Ok vs -> body it a = fb vs a) ->
    g_for (g_clone g) body a = fold_body fb (replicate (size (fst st)) [None]) a).
  { intros A body fb a Hb. unfold g_for. exact (g_loop_spec (g_clone g) body fb Hb _ _ _ it a Hit). }
  split.
  { destruct (sees_64 n st g HG) as (-> & _). unfold g_Size. rewrite (Hfor _ _ (fun _ n => Ok (n + 1, false))) by done.
    assert (Hf : forall k a, fold_body (fun (_ : list (option (tentry L))) n => Ok (n + 1, false)) (replicate k [None]) a = Ok (a + N.of_nat k)).
    { induction k as [|k IH]; intros a; cbn [replicate fold_body rbind fst snd]; [by rewrite N.add_0_r|].
      rewrite IH. f_equal. lia. }
    by rewrite Hf. }
  split.
  { unfold g_get_all. rewrite (Hfor _ _ (fun vs acc => match vs with [] => Panic | v :: _ => Ok (acc ++ [v], false) end)).
    2: { intros it' vs a Hv. unfold it_entry. rewrite Hv. cbn [rbind]. by destruct vs. }
    by rewrite fold_nil_collects. }
  intros Hne. assert (Hk : size (fst st) <> O) by (by rewrite size_0).
  assert (Hp : forall (A : Type) (k : option (tentry L) -> tentry L -> A -> res (A * bool)) a,
    g_for (g_clone g) (fun it a => do v <- it_entry (g_clone g) it; do e <- non_nil v; k v e a) a = Panic).
  { intros A k a. rewrite (Hfor _ _ (fun vs a => match vs with [] => Panic | v :: _ => do e <- non_nil v; k v e a end)).
    2: { intros it' vs b Hv. unfold it_entry. rewrite Hv. cbn [rbind]. by destruct vs. }
    by apply fold_nil_panics. }
  assert (Hget : forall x, g_get (g_clone g) x = Panic).
  { intros x. unfold g_get.
    by rewrite (Hp _ (fun _ e _ => if (te_id e =? i_id x) && (te_len e =? i_len x) then Ok (Some e, true) else Ok (None, false)) None). }
  assert (Hlab : forall sel, g_get_by_label (g_clone g) sel = Panic).
  { intros sel. unfold g_get_by_label.
    by rewrite (Hp _ (fun v e es => Ok (if sel (te_labels e) then es ++ [v] else es, false)) []). }
  split; [done|]. split; [done|]. split; [|split; [|split]].
  - intros x. unfold g_children.
    by rewrite (Hp _ (fun v e es => do o <- overlaps (gc_id cfg_tree64) (eid e) x; Ok (if o && (i_len x <? te_len e) then es ++ [v] else es, false)) []).
  - intros x. unfold g_parents.
    by rewrite (Hp _ (fun v e es => do o <- overlaps (gc_id cfg_tree64) (eid e) x; Ok (if o && (te_len e <? id_w (gc_id cfg_tree64)) then es ++ [v] else es, false)) []).
  - intros x Hx. cbn [g_step]. unfold g_release_id, g_validate. change (g_size (g_clone g)) with (g_size g).
    rewrite (proj2 (N.ltb_ge _ _) Hx). cbn [rbind]. by rewrite Hget.
  - intros sel. cbn [g_step]. unfold g_release_by_label. by rewrite Hlab.
Qed.
