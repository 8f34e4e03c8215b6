(** Concurrent executions of tree16 and tree32 in which stored ids are overwritten
    but none is added or removed. *)
From Verif Require Export GTreeConcProofs ConcStable.
From Verif Require Import IdFinal TreeFinal GTreeProofs GTreeFinal IdProofs ConcRuns TreeMain TreeSpec GTreeSpec GTreeLoop.
From Coq Require Import Lia ZifyBool ZifyNat ZifyN.
Ltac Zify.zify_post_hook ::= idtac.

(** ** An overwriting Set changes no node *)
Section nodes.
Context {T : Type} (zero : T) (c : idcfg).
Implicit Types (s : tree T).

Lemma upd_node_some s i f s' : upd_node s i f = Ok s' ->
  exists nd, t_nodes s !! i = Some nd /\ s' = with_nodes s (<[i := f nd]> (t_nodes s)).
Proof. unfold upd_node, get_node. destruct (t_nodes s !! i); cbn [rbind]; [|done]. intros [= <-]. eauto. Qed.

Lemma add_val_false s v i mf uf s' : add_val zero s v i mf uf = Ok (s', false) ->
  t_nodes s' = t_nodes s /\ t_n s' = t_n s.
Proof.
  unfold add_val. destruct (get_node s i) as [nd|e|]; cbn [rbind]; [|done..].
  destruct (match mf with None => None | Some m => find_match zero s m v i 0 (N.to_nat (n_cnt nd)) end).
  - destruct uf; by intros [= <-].
  - destruct (upd_node _ i _); cbn [rbind]; done.
Qed.
Lemma new_node_fresh s x len s' i : new_node s x len = Ok (s', i) ->
  t_nodes s' !! i = Some (Node 0 0 (i_id x) len 0).
Proof.
  unfold new_node. destruct (t_avail s) as [|j av].
  - intros [= <- <-]. cbn. by rewrite lookup_insert.
  - destruct (upd_node _ j _) as [s1|e|] eqn:E; cbn [rbind]; [|done..]. intros [= <- <-].
    apply upd_node_some in E as (nd & _ & ->). cbn. by rewrite lookup_insert.
Qed.
Lemma add_val_fresh s v i mf uf nd s' b : t_nodes s !! i = Some nd -> n_cnt nd = 0 ->
  add_val zero s v i mf uf = Ok (s', b) -> b = true.
Proof.
  intros H1 H2. unfold add_val, get_node. rewrite H1. cbn [rbind]. rewrite H2. change (N.to_nat 0) with 0%nat.
  assert ((match mf with None => None | Some m => find_match zero s m v i 0 0 end) = None) as -> by (by destruct mf).
  destruct (upd_node _ i _); cbn [rbind]; [|done..]. by intros [= _ <-].
Qed.
Ltac bind_in H x E := match type of H with rbind ?e _ = _ => destruct e as [x|?|] eqn:E; cbn [rbind] in H; [|done..] end.

Lemma add_leaf_true s p r x v mf uf s' b k : add_leaf zero s p r x v mf uf = Ok (s', (b, k)) -> b = true.
Proof.
  unfold add_leaf. intros H. bind_in H a E1. destruct a as [s1 i]. cbn [fst snd] in H. bind_in H y E2. destruct y as [s2 b2]. cbn [fst snd] in H.
  bind_in H s3 E3. bind_in H nd E4. injection H as _ <- _.
  eapply add_val_fresh; [by eapply new_node_fresh|done|done].
Qed.
Lemma add_loop_false fuel : forall s p i x v mf uf s' k, add_loop zero c fuel s p i x v mf uf = Ok (s', (false, k)) ->
  t_nodes s' = t_nodes s /\ t_n s' = t_n s.
Proof.
  induction fuel as [|fuel IH]; intros s p i x v mf uf s' k H; cbn [add_loop] in H; [done|].
  destruct (i =? 0); [done|]. bind_in H nd E. destruct (n_len nd =? 0); [done|].
  destruct (match_count c nd x =? 0); [done|]. destruct (match_count c nd x =? i_len x).
  - destruct (match_count c nd x =? n_len nd).
    + bind_in H a E1. bind_in H nd' E2. destruct a as [s1 b]. cbn [fst snd] in H. injection H as <- -> _. by eapply add_val_false.
    + exfalso. bind_in H a E1. bind_in H b E2. bind_in H s1 E3. bind_in H nd' E4. bind_in H lb E5. bind_in H s2 E6. bind_in H s3 E7.
      bind_in H nj E8. destruct a as [s0 j], b as [sb b]. cbn [fst snd] in *. injection H as _ -> _.
      by pose proof (add_val_fresh _ _ _ _ _ _ _ _ (new_node_fresh _ _ _ _ _ E1) eq_refl E2).
  - destruct (match_count c nd x =? n_len nd).
    + destruct (negb _).
      * destruct (n_left nd =? 0); [by apply add_leaf_true in H|by eapply IH].
      * destruct (n_right nd =? 0); [by apply add_leaf_true in H|by eapply IH].
    + exfalso. bind_in H a E1. bind_in H a' E1'. bind_in H b E2. bind_in H s1 E3. bind_in H nd' E4. bind_in H lb E5. bind_in H s2 E6. bind_in H s3 E7.
      bind_in H nj E8. destruct a as [s0 j], a' as [s0' j'], b as [sb b]. cbn [fst snd] in *. injection H as _ -> _.
      by pose proof (add_val_fresh _ _ _ _ _ _ _ _ (new_node_fresh _ _ _ _ _ E1') eq_refl E2).
Qed.
Lemma reserve_nodes s : t_nodes (reserve s) = t_nodes s /\ t_n (reserve s) = t_n s.
Proof. unfold reserve. by destruct (_ <? _). Qed.
Lemma tree_add_false s x v mf uf s' k : tree_add zero c s x v mf uf = Ok (s', (false, k)) ->
  t_nodes s' = t_nodes s /\ t_n s' = t_n s.
Proof.
  intros H. unfold tree_add in H. cbv zeta in H. destruct (reserve_nodes s) as [<- <-]. bind_in H rt E. destruct (i_len x =? 0).
  - bind_in H a E1. bind_in H nd' E2. destruct a as [s1 b]. cbn [fst snd] in H. injection H as <- -> _. by eapply add_val_false.
  - destruct (negb _).
    + destruct (n_left rt =? 0); [by apply add_leaf_true in H|by eapply add_loop_false].
    + destruct (n_right rt =? 0); [by apply add_leaf_true in H|by eapply add_loop_false].
Qed.

(** ** Next looks at the nodes only *)
Lemma next_body_ext s s' it : t_nodes s = t_nodes s' -> next_body s it = next_body s' it.
Proof. intros H. unfold next_body, get_node. by rewrite H. Qed.
Lemma iter_next_ext s s' it : t_nodes s = t_nodes s' -> t_n s = t_n s' -> iter_next s it = iter_next s' it.
Proof.
  intros H Hn. unfold iter_next. rewrite Hn. generalize (S (S (2 * N.to_nat (t_n s')))). intros fuel. revert it.
  induction fuel as [|fuel IH]; intros it; cbn [next_loop]; [done|]. rewrite (next_body_ext s s' it H).
  destruct (next_body s' it) as [[it' [b|]]|e|]; cbn [rbind fst snd]; [done|apply IH|done..].
Qed.

(** The places where an iterator stops. *)
Fixpoint stops s (it : iter) (its : list iter) : Prop :=
  match its with
  | [] => exists it', iter_next s it = Ok (it', false)
  | i :: its' => iter_next s it = Ok (i, true) /\ stops s i its'
  end.
Lemma iter_loop_stops fuel : forall s it vss it', iter_loop zero fuel s it = Ok (vss, it') ->
  exists its, stops s it its /\ Forall2 (fun i vs => iter_vals zero s i = Ok vs) its vss /\ (length its < fuel)%nat.
Proof.
  induction fuel as [|fuel IH]; intros s it vss it' H; cbn [iter_loop] in H; [done|].
  bind_in H x E. destruct x as [i b]. cbn [fst snd] in H. destruct b.
  - bind_in H vs E1. bind_in H rest E2. destruct rest as [vss' it2]. cbn [fst snd] in H. injection H as <- <-.
    destruct (IH _ _ _ _ E2) as (its & H1 & H2 & H3). exists (i :: its). cbn. split; [done|]. split; [by constructor|lia].
  - injection H as <- <-. exists []. cbn. split; [by exists i|]. split; [done|lia].
Qed.
Lemma stops_unique s its : forall it its', stops s it its -> stops s it its' -> its = its'.
Proof.
  induction its as [|i its IH]; intros it [|i' its']; cbn; [done|..].
  - intros [j H1] [H2 _]. rewrite H1 in H2. done.
  - intros [H2 _] [j H1]. rewrite H1 in H2. done.
  - intros [H1 H2] [H3 H4]. rewrite H1 in H3. injection H3 as <-. f_equal. by eapply IH.
Qed.
Lemma stops_ext s s' its : t_nodes s = t_nodes s' -> t_n s = t_n s' -> forall it, stops s it its -> stops s' it its.
Proof.
  intros H Hn. induction its as [|i its IH]; intros it; cbn [stops].
  - intros [it' H1]. exists it'. by rewrite <- (iter_next_ext s s' it H Hn).
  - intros [H1 H2]. split; [by rewrite <- (iter_next_ext s s' it H Hn)|by apply IH].
Qed.
End nodes.

Section over.
Context {L : Type} (lstr : L -> string) (c : gcfg) (Hc : c ∈ g_packages_16_32) (n : N).
Notation w := (gw c).
Notation zero := (@None (tentry L)).
Let Hcc := gpack c Hc.
Let Hwide : wide (option (tentry L)) (gc_id c) := proj1 (wide_16_32 _ _ Hcc).
Let Hw : w ∈ [16; 32; 64] := proj2 (wide_16_32 (option (tentry L)) _ Hcc).
Local Existing Instance Hwide.

Lemma over_spec m (g : gtree L) x e0 l : GInv c n m g -> gid_ok c x -> m !! prefix w x = Some e0 -> fits c m 1 ->
  exists g', g_set c g x (new_entry x l) = Ok g' /\ GInv c n (<[prefix w x := new_entry x l]> m) g' /\
    t_nodes (g_tree g') = t_nodes (g_tree g) /\ t_n (g_tree g') = t_n (g_tree g).
Proof.
  intros HG Hx Hin Hf. destruct (set_spec lstr c Hc n m g x l HG Hx Hf) as (g' & Hs & HG'). exists g'. split; [done|]. split; [done|].
  destruct HG as [_ _ _ [t Ht] Hok].
  assert (Hr : forall m' : record L, (size m' <= S (size m))%nat ->
    (forall q e, m' !! q = Some e -> q = prefix w (eid e) /\ gid_ok c (eid e)) -> room w (GTreeLoop.vmap m')).
  { intros m' Hsz Hok'. apply room_vmap; [done..|]. destruct Hf as [Hf|Hf]; [by left|right]. lia. }
  destruct (step_spec zero (gc_id c) Hw (g_tree g) (GTreeLoop.vmap m) t (TSet x (Some (new_entry x l))) Ht) as (s' & t' & He & _).
  - apply Hr; [lia|done].
  - cbn [spec_step fst]. rewrite held_vmap, Hin. cbn [set_list]. rewrite <- vmap_insert.
    apply Hr; [apply size_insert|by apply HG'].
  - done.
  - cbn [spec_step fst snd t_step] in He. unfold g_set in Hs.
    destruct (tree_Set zero (gc_id c) (g_tree g) x (Some (new_entry x l))) as [[s1 [b k]]| |] eqn:Es; cbn [rbind fst snd] in *; [|done..].
    injection Hs as <-. injection He as -> He _. rewrite held_vmap, Hin in He. cbn in He. subst b.
    cbn [with_tree g_tree]. by eapply tree_add_false.
Qed.

(** Two records with the same ids list them in the same order. *)
Lemma entries_eids (m m' : record L) es es' : entries c m es -> entries c m' es' ->
  (forall q, eid <$> m' !! q = eid <$> m !! q) ->
  Forall2 (fun e e' => eid e' = eid e /\ m' !! prefix w (eid e) = Some e') es es'.
Proof.
  intros He He' Hq. set (f := fun e : tentry L => default e (m' !! prefix w (eid e))).
  assert (Hf : forall e, e ∈ es -> m' !! prefix w (eid e) = Some (f e) /\ eid (f e) = eid e).
  { intros e Hin. apply He in Hin. specialize (Hq (prefix w (eid e))). rewrite Hin in Hq. unfold f.
    destruct (m' !! prefix w (eid e)) as [e'|]; [|done]. apply (inj Some) in Hq. done. }
  assert (es' = f <$> es) as ->.
  { apply (entries_unique c m' es' _ He'). split.
    - destruct He as [S _]. clear -S Hf. induction S as [|e es S IH F]; cbn; [constructor|]. constructor.
      + apply IH. intros e' H. apply Hf. by right.
      + rewrite Forall_forall in *. intros e' H. apply elem_of_list_fmap in H as (e1 & -> & H). specialize (F e1 H).
        unfold before_entry in *. rewrite (proj2 (Hf e (elem_of_list_here _ _))), (proj2 (Hf e1 (elem_of_list_further _ _ _ H))). done.
    - intros e'. split.
      + intros H. apply elem_of_list_fmap in H as (e1 & -> & H). destruct (Hf e1 H) as [H1 ->]. done.
      + intros H. specialize (Hq (prefix w (eid e'))). rewrite H in Hq.
        destruct (m !! prefix w (eid e')) as [e|] eqn:E; [|done]. apply (inj Some) in Hq. apply elem_of_list_fmap. exists e.
        rewrite Hq in E. apply He in E. split; [|done]. destruct (Hf e E) as [H1 _]. rewrite <- Hq, H in H1. by injection H1. }
  apply Forall2_fmap_r, Forall_Forall2_diag, Forall_forall. intros e H. destruct (Hf e H). done.
Qed.

Context (m : record L) (g : gtree L) (todo : list (list (gcall L))).
Hypothesis HG : GInv c n m g.
Hypothesis Hroom : fits c m 1.
Hypothesis Hcalls : forall k o, call_of todo k = Some o -> g_overwrites c n m o.
Notation ver := (g_version c todo).
Definition stored_by (e : tentry L) : Prop := exists k o, call_of todo k = Some o /\ g_stores c o e.

(** What stays: the nodes and the ids; the entries are versions of the first ones. *)
Definition Same (d : gtree L) : Prop :=
  exists m', GInv c n m' d /\ t_nodes (g_tree d) = t_nodes (g_tree g) /\ t_n (g_tree d) = t_n (g_tree g) /\
    (forall q, eid <$> m' !! q = eid <$> m !! q) /\
    (forall q e, m' !! q = Some e -> m !! q = Some e \/ stored_by e).
Lemma Same_g : Same g.
Proof. exists m. split; [done|]. split; [done|]. split; [done|]. split; [done|]. auto. Qed.

Lemma lookup_id_some (m' : record L) x : lookup_id c m' x <> None -> exists e, m' !! prefix w x = Some e /\ eid e = x.
Proof.
  unfold lookup_id. destruct (m' !! prefix w x) as [e|]; [|done]. destruct (same_id e x) eqn:E; [|done]. intros _.
  exists e. split; [done|]. by apply same_id_eid.
Qed.
Lemma Same_set d x l : Same d -> gid_ok c x -> lookup_id c m x <> None -> stored_by (new_entry x l) ->
  exists d', g_set c d x (new_entry x l) = Ok d' /\ Same d'.
Proof.
  intros (m' & HG' & Hn1 & Hn2 & Hq & Hv) Hx Hin Hst. destruct (lookup_id_some _ _ Hin) as (e & He & Hid).
  pose proof (Hq (prefix w x)) as Hqx. rewrite He in Hqx. destruct (m' !! prefix w x) as [e'|] eqn:He'; [|done].
  assert (Hsz : size m' = size m).
  { rewrite <- (map_size_fmap (M := gmap (list bool)) eid m'), <- (map_size_fmap (M := gmap (list bool)) eid m).
    f_equal. apply map_eq. intros q. rewrite !(lookup_fmap (M := gmap (list bool))). apply Hq. }
  destruct (over_spec m' d x e' l HG' Hx He') as (d' & Hs & HGd & H1 & H2).
  { unfold fits. by rewrite Hsz. }
  exists d'. split; [done|]. exists (<[prefix w x := new_entry x l]> m'). split; [done|]. split; [by rewrite H1|]. split; [by rewrite H2|]. split.
  - intros q. destruct (decide (q = prefix w x)) as [->|Hne].
    + rewrite lookup_insert, He. cbn. rewrite Hid. by destruct x.
    + rewrite lookup_insert_ne by done. apply Hq.
  - intros q e1 H. apply lookup_insert_Some in H as [[<- <-]|[_ H]]; [by right|by apply Hv].
Qed.

(** The stops of the iterator and the entries they stand for. *)
Lemma stops_entries : exists its es, entries c m es /\ stops (g_tree g) iterate its /\
  (length its < S (N.to_nat (t_n (g_tree g))))%nat /\
  Forall2 (fun it e => gid_ok c (eid e) /\ forall d, Same d -> exists e', it_entry d it = Ok (Some e') /\ ver e e') its es.
Proof.
  destruct (GInv_entries c n m g HG) as (es & it' & Hl & He).
  destruct (iter_loop_stops zero _ _ _ _ _ Hl) as (its & Hst & Hv & Hlen). exists its, es.
  split; [done|]. split; [done|]. split; [done|].
  assert (Hlen2 : length its = length es) by (apply Forall2_length in Hv; by rewrite fmap_length in Hv).
  apply Forall2_same_length_lookup_2; [done|]. intros i it e Hi Hi'. split.
  { apply (entries_gid c n m g HG es); [done|]. by eapply elem_of_list_lookup_2. }
  intros d (m' & HGd & Hn1 & Hn2 & Hq & Hver).
  destruct (GInv_entries c n m' d HGd) as (es' & it2 & Hl' & He').
  destruct (iter_loop_stops zero _ _ _ _ _ Hl') as (its' & Hst' & Hv' & _).
  assert (its' = its) as ->. { eapply stops_unique; [done|]. by eapply stops_ext; [..|exact Hst]. }
  destruct (Forall2_lookup_l _ _ _ _ _ (entries_eids m m' es es' He He' Hq) Hi') as (e' & Hi'' & Hid & Hm').
  destruct (Forall2_lookup_l _ _ _ _ _ Hv' Hi) as (vs & Hvs & Hit). rewrite list_lookup_fmap, Hi'' in Hvs. injection Hvs as <-.
  exists e'. split; [unfold it_entry; by rewrite Hit|]. split; [done|].
  destruct (Hver _ _ Hm') as [H|H]; [left|by right].
  assert (Hin : e ∈ es) by (by eapply elem_of_list_lookup_2). apply He in Hin. rewrite Hin in H. by injection H.
Qed.

Notation R := (fun (it : iter) e => gid_ok c (eid e) /\ forall d, Same d -> exists e', it_entry d it = Ok (Some e') /\ ver e e').
Lemma Same_next d it : Same d -> iter_next (g_tree d) it = iter_next (g_tree g) it.
Proof. intros (m' & _ & H1 & H2 & _). by apply iter_next_ext. Qed.

(** ** The loops *)
Lemma p_loop_ok {A} (post : gout L -> Prop) (P : list (tentry L) -> A -> Prop) body k :
  (forall d it e e' rest a, Same d -> gid_ok c (eid e) -> it_entry d it = Ok (Some e') -> ver e e' -> P (e :: rest) a ->
    exists a' b, body d it a = Ok (a', b) /\ if b : bool then pok Same post (k (Ok a')) else P rest a') ->
  (forall a, P [] a -> pok Same post (k (Ok a))) ->
  forall fuel its es a it, Forall2 R its es -> stops (g_tree g) it its -> (length its < fuel)%nat -> P es a ->
    pok Same post (p_loop fuel body a it k).
Proof.
  intros Hb Hk. induction fuel as [|fuel IH]; intros its es a it HR Hs Hl HP; [lia|]. cbn [p_loop pok]. intros d Hd.
  rewrite (Same_next d it Hd). destruct HR as [|i e its es [Hg HR] HRs]; cbn [stops] in Hs.
  - destruct Hs as [it' ->]. cbn [fst snd]. by apply Hk.
  - destruct Hs as [-> Hs]. cbn [fst snd]. destruct (HR d Hd) as (e' & He' & Hv).
    destruct (Hb d i e e' es a Hd Hg He' Hv HP) as (a' & b & -> & H). cbn [fst snd]. destruct b; [done|].
    eapply IH; [done|done| |done]. cbn [length] in Hl. lia.
Qed.
Lemma c_loop_ok {A} (method : gmeth L -> prog (gtree L) (gout L)) Post (Q : gcout L -> Prop) (P : list (tentry L) -> A -> Prop) body k :
  (forall it e rest a k', gid_ok c (eid e) -> (forall d, Same d -> exists e', it_entry d it = Ok (Some e') /\ ver e e') -> P (e :: rest) a ->
    (forall a', P rest a' -> cok method Same Post Q (k' (Ok a'))) -> cok method Same Post Q (body it a k')) ->
  (forall a, P [] a -> cok method Same Post Q (k (Ok a))) ->
  forall fuel its es a it, Forall2 R its es -> stops (g_tree g) it its -> (length its < fuel)%nat -> P es a ->
    cok method Same Post Q (c_loop fuel body a it k).
Proof.
  intros Hb Hk. induction fuel as [|fuel IH]; intros its es a it HR Hs Hl HP; [lia|]. cbn [c_loop cok]. intros d Hd.
  rewrite (Same_next d it Hd). destruct HR as [|i e its es [Hg HR] HRs]; cbn [stops] in Hs.
  - destruct Hs as [it' ->]. cbn [fst snd]. by apply Hk.
  - destruct Hs as [-> Hs]. cbn [fst snd]. eapply Hb; [done|done|done|]. intros a' Ha'.
    eapply IH; [done|done| |done]. cbn [length] in Hl. lia.
Qed.

(** ** The locked regions *)
Definition seen (r : res (list (option (tentry L)))) (o : gout L) : Prop :=
  exists es vs, r = Ok (Some <$> es) /\ o = OutVals (Ok (Some <$> vs)) /\ Forall2 ver es vs.
Definition Post (o : gmeth L) (r : gout L) : Prop :=
  match o with
  | MGet x => match g_get g x with
              | Ok e => exists e', r = OutEntry (Ok e') /\ ver e e'
              | Err ENotFound => r = OutEntry (Err ENotFound)
              | _ => False
              end
  | MChildren x => seen (g_children c g x) r
  | MParents x => seen (g_parents c g x) r
  | MIterate => r = OutNodes (t_n (g_tree g))
  | MSet _ _ | MSetUnlocked _ _ => r = OutUnit (Ok tt)
  | _ => True
  end.
Notation pk := (pok Same).
Notation meth := (gmethod lstr c).

Lemma ver_te e e' : ver e e' -> te_id e' = te_id e /\ te_len e' = te_len e.
Proof. intros [H _]. unfold eid in H. by injection H. Qed.

Lemma get_ok x : gid_ok c x -> pk (Post (MGet x)) (meth (MGet x)).
Proof.
  intros Hx. destruct stops_entries as (its & es & He & Hs & Hl & HR). cbn [gmethod]. unfold p_for. cbn [pok]. intros d Hd.
  replace (t_n (g_tree d)) with (t_n (g_tree g)) by (by destruct Hd as (m' & _ & _ & -> & _)).
  apply (p_loop_ok _ (fun rest a => a = None /\ List.find (fun e => same_id e x) rest = lookup_id c m x)) with (its := its) (es := es); [| |done..|].
  - intros d' it e e' rest a Hd' _ Hit Hv [-> Hfind]. unfold get_body. rewrite Hit. cbn [rbind non_nil].
    destruct (ver_te _ _ Hv) as [-> ->]. cbn [List.find] in Hfind. unfold same_id in Hfind at 1.
    destruct ((te_id e =? i_id x) && (te_len e =? i_len x)).
    + exists (Some e'), true. split; [done|]. cbn [pok rbind Post]. rewrite (get_spec c n m g HG x Hx), <- Hfind. eauto.
    + exists None, false. done.
  - intros a [-> Hf]. cbn [pok rbind Post]. rewrite (get_spec c n m g HG x Hx), <- Hf. done.
  - split; [done|]. by apply (find_entries c n m g HG).
Qed.

Lemma related_ok (x : id) (f : tentry L -> bool) body : gid_ok c x ->
  (forall e e', te_len e = te_len e' -> f e = f e') ->
  body = (fun (d : gtree L) it es =>
      do v <- it_entry d it;
      do e <- non_nil v;
      do o <- overlaps (gc_id c) (eid e) x;
      Ok (if o && f e then es ++ [v] else es, false)) ->
  pk (seen (g_for g (body g) [])) (p_for body [] OutVals).
Proof.
  intros Hx Hf ->. destruct stops_entries as (its & es & He & Hs & Hl & HR).
  set (rel := fun e => match overlaps (gc_id c) (eid e) x with Ok o => o && f e | _ => false end).
  destruct (related_spec c n m g HG x rel f) as (es2 & He2 & Hseq).
  { intros e Hg. destruct (overlaps_spec c Hc (eid e) x Hg Hx) as (o & Ho & _). exists o. split; [done|]. unfold rel. by rewrite Ho. }
  pose proof (entries_unique c m _ _ He2 He) as ->. rewrite Hseq.
  unfold p_for. cbn [pok]. intros d Hd.
  replace (t_n (g_tree d)) with (t_n (g_tree g)) by (by destruct Hd as (m' & _ & _ & -> & _)).
  apply (p_loop_ok _ (fun rest a => exists done vs, List.filter rel es = done ++ List.filter rel rest /\ a = Some <$> vs /\ Forall2 ver done vs))
    with (its := its) (es := es); [| |done..|].
  - intros d' it e e' rest a Hd' Hg Hit Hv (done & vs & Hd1 & -> & Hd2). rewrite Hit. cbn [rbind non_nil].
    destruct (overlaps_spec c Hc (eid e) x Hg Hx) as (o & Ho & _). pose proof (proj1 Hv) as Hid. rewrite Hid, Ho. cbn [rbind].
    rewrite (Hf e' e) by (by apply ver_te in Hv as [_ ->]). eexists _, false. split; [done|]. cbn [List.filter] in Hd1. unfold rel at 2 in Hd1. rewrite Ho in Hd1.
    destruct (o && f e).
    + exists (done ++ [e]), (vs ++ [e']). split; [by rewrite <- app_assoc|]. split; [by rewrite fmap_app|]. by apply Forall2_app; [|constructor].
    + exists done, vs. done.
  - intros a (done & vs & Hd1 & -> & Hd2). cbn [pok]. exists (List.filter rel es), vs. split; [done|]. split; [done|].
    rewrite Hd1. cbn [List.filter]. by rewrite app_nil_r.
  - exists [], []. done.
Qed.
Lemma children_ok x : gid_ok c x -> pk (Post (MChildren x)) (meth (MChildren x)).
Proof. intros Hx. apply (related_ok x (fun e => i_len x <? te_len e) (children_body c x) Hx); [|done]. by intros e e' ->. Qed.
Lemma parents_ok x : gid_ok c x -> pk (Post (MParents x)) (meth (MParents x)).
Proof. intros Hx. apply (related_ok x (fun e => te_len e <? w) (parents_body c x) Hx); [|done]. by intros e e' ->. Qed.
Lemma iterate_ok : pk (Post MIterate) (meth MIterate).
Proof. cbn. intros d (m' & _ & _ & -> & _). done. Qed.
Lemma modify_ok x l : gid_ok c x -> lookup_id c m x <> None -> stored_by (new_entry x l) ->
  pk (Post (MSet x (new_entry x l))) (meth (MSet x (new_entry x l))) /\
  pk (Post (MSetUnlocked x (new_entry x l))) (meth (MSetUnlocked x (new_entry x l))).
Proof.
  intros Hx Hin Hst. split; cbn [gmethod p_modify pok Post]; intros d Hd; (split;
    [intros d' Hd'; destruct (Same_set d' x l Hd' Hx Hin Hst) as (d2 & -> & H2); done
    |destruct (Same_set d x l Hd Hx Hin Hst) as (d2 & -> & H2); done]).
Qed.

(** ** The calls *)
Definition Qcall (o : gcall L) (r : gcout L) : Prop :=
  ~ g_crashed r /\
  match o with
  | CGetByLabel sel => exists es, g_get_all g = Ok (Some <$> es) /\ g_selected c todo sel es r
  | _ => g_outcome c todo (snd (g_seq lstr c g o)) r
  end.
Notation ck := (cok meth Same Post).

Lemma write_ok x l k : gid_ok c x -> lookup_id c m x <> None -> stored_by (new_entry x l) -> forall Q : gcout L -> Prop,
  ck Q (k (OutUnit (Ok tt))) -> ck Q (CCall (MSet x (new_entry x l)) k).
Proof.
  intros Hx Hin Hst Q H. split; [by apply modify_ok|]. intros r Hr. cbn in Hr. by rewrite Hr.
Qed.
Lemma set_all_same l ids : forall d, Same d -> (forall x, x ∈ ids -> gid_ok c x /\ lookup_id c m x <> None /\ stored_by (new_entry x l)) ->
  exists d', set_all c d ids l = Ok d' /\ Same d'.
Proof.
  induction ids as [|x ids IH]; intros d Hd H; cbn [set_all]; [eauto|].
  destruct (H x (elem_of_list_here _ _)) as (H1 & H2 & H3). destruct (Same_set d x l Hd H1 H2 H3) as (d1 & -> & Hd1). cbn [rbind].
  apply IH; [done|]. intros y Hy. apply H. by right.
Qed.
Lemma c_set_all_ok l ids : forall Q : gcout L -> Prop, Q (GRUnit (Ok tt)) -> (forall x, x ∈ ids -> gid_ok c x /\ lookup_id c m x <> None /\ stored_by (new_entry x l)) ->
  ck Q (c_set_all ids l).
Proof.
  induction ids as [|x ids IH]; intros Q HQ H; cbn [c_set_all]; [done|].
  destruct (H x (elem_of_list_here _ _)) as (H1 & H2 & H3). split; [by apply modify_ok|]. intros r Hr. cbn in Hr. rewrite Hr. cbn [as_done].
  apply IH; [done|]. intros y Hy. apply H. by right.
Qed.

Ltac fin := split; [by intros []|cbn; eauto].
Lemma call_ok k o : call_of todo k = Some o -> ck (Qcall o) (gcall_client c g o).
Proof.
  intros Hk. pose proof (Hcalls k o Hk) as Ho. destruct stops_entries as (its & es & He & Hs & Hl & HR).
  destruct (get_all_spec c n m g HG) as (es2 & He2 & Hall). pose proof (entries_unique c m _ _ He2 He) as ->.
  destruct o as [x|x l|x l|l|str l|x|sel|x|x|sel| |]; cbn [g_overwrites] in Ho; cbn [gcall_client].
  - (* Get *) split; [by apply get_ok|]. intros r Hr. cbn [cok]. unfold Qcall. cbn [g_seq snd g_outcome]. cbn [Post] in Hr.
    destruct (g_get g x) as [e|[]|]; try done.
    + destruct Hr as (e' & -> & Hv). cbn [as_gentry]. fin.
    + subst r. fin.
  - (* Update *) destruct Ho as [Hx Ho]. unfold Qcall. cbn [g_seq]. unfold g_update. rewrite (validate_spec c n m g x HG).
    destruct (N.leb_spec (2 ^ n) (i_id x)) as [H|H]; cbn [rbind]; [fin|]. destruct Ho as [Ho|Ho]; [lia|].
    assert (Hst : stored_by (new_entry x l)) by (exists k, (CUpdate x l); done).
    destruct (Same_set g x l Same_g Hx Ho Hst) as (d' & -> & _). apply write_ok; [done..|fin].
  - (* ClaimID *) destruct Ho as [Hx Ho]. unfold Qcall. cbn [g_seq]. unfold g_claim_id. rewrite (validate_spec c n m g x HG).
    destruct (N.leb_spec (2 ^ n) (i_id x)) as [H|H]; cbn [rbind]; [fin|]. destruct Ho as [Ho|Ho]; [lia|].
    assert (Hst : stored_by (new_entry x l)) by (exists k, (CClaimID x l); done).
    destruct (Same_set g x l Same_g Hx Ho Hst) as (d' & -> & _). apply write_ok; [done..|fin].
  - done.
  - (* ClaimRange *) unfold Qcall. cbn [g_seq]. unfold g_claim_range.
    destruct (parse_range (gc_id c) str) as [rg|e|] eqn:Ep; cbn [rbind]; [|fin|].
    + destruct (parsed_ids c Hc str rg Ep) as (ids & Hids & Hok). unfold range_prefixes in Ho. rewrite Ep, Hids in Ho. rewrite Hids. cbn [rbind].
      assert (Hid : forall x, x ∈ ids -> gid_ok c x /\ lookup_id c m x <> None /\ stored_by (new_entry x l)).
      { intros x Hx. rewrite Forall_forall in Hok. split; [by apply Hok|]. split; [by apply Ho|]. exists k, (CClaimRange str l).
        split; [done|]. exists x. unfold range_prefixes. rewrite Ep, Hids. done. }
      destruct (set_all_same l ids g Same_g Hid) as (d' & -> & _). apply c_set_all_ok; [fin|done].
    + exfalso. by apply (C26_parse_range_pf (gc_id c) str (range_from (gc_id c) 0 0) (gpack_all c Hc)).
  - (* ReleaseID *) destruct Ho as [Hx Ho]. unfold Qcall. cbn [g_seq]. unfold g_release_id. rewrite (validate_spec c n m g x HG).
    destruct (N.leb_spec (2 ^ n) (i_id x)) as [H|H]; cbn [rbind]; [fin|]. destruct Ho as [Ho|Ho]; [lia|].
    split; [by apply get_ok|]. intros r Hr. cbn [Post] in Hr. rewrite (get_spec c n m g HG x Hx), Ho in *. subst r. fin.
  - done.
  - (* Children *) split; [by apply children_ok|]. intros r (es1 & vs & Hr & -> & Hv). cbn [cok]. unfold Qcall. cbn [g_seq snd]. rewrite Hr.
    split; [by intros []|]. by exists es1, vs.
  - (* Parents *) split; [by apply parents_ok|]. intros r (es1 & vs & Hr & -> & Hv). cbn [cok]. unfold Qcall. cbn [g_seq snd]. rewrite Hr.
    split; [by intros []|]. by exists es1, vs.
  - (* GetByLabel *) split; [apply iterate_ok|]. intros r Hr. cbn [Post] in Hr. subst r. cbn [as_nodes].
    apply (c_loop_ok _ _ _ (fun rest a => exists done ds vs, es = done ++ rest /\ a = Some <$> vs /\ Forall2 ver ds vs /\ ds `sublist_of` done /\
      (forall e, e ∈ done -> (forall e', ver e e' -> sel (te_labels e') = true) -> e ∈ ds) /\
      (forall e, e ∈ ds -> exists e', ver e e' /\ sel (te_labels e') = true))) with (its := its) (es := es); [| |done..|].
    + intros it e rest a k' Hg Hit (done & ds & vs & E1 & -> & E2 & E3 & E4 & E5) Hk'. cbn [c_label_body cok]. intros d Hd.
      destruct (Hit d Hd) as (e' & -> & Hv). cbn [rbind non_nil].
      assert (E1' : es = (done ++ [e]) ++ rest) by (by rewrite <- app_assoc).
      destruct (sel (te_labels e')) eqn:Esel.
      * cbn [cok]. intros d2 Hd2. destruct (Hit d2 Hd2) as (e2 & -> & Hv2). cbn [rbind]. apply Hk'.
        exists (done ++ [e]), (ds ++ [e]), (vs ++ [e2]). split; [done|]. split; [by rewrite fmap_app|].
        split; [by apply Forall2_app; [|constructor]|]. split; [by apply sublist_app|]. split.
        -- intros y Hy H. apply elem_of_app in Hy as [Hy|Hy]; apply elem_of_app; [left; auto|by right].
        -- intros y Hy. apply elem_of_app in Hy as [Hy|Hy]; [auto|]. apply elem_of_list_singleton in Hy as ->. eauto.
      * apply Hk'. exists (done ++ [e]), ds, vs. split; [done|]. split; [done|]. split; [done|].
        split; [by apply sublist_inserts_r|]. split; [|done].
        intros y Hy H. apply elem_of_app in Hy as [Hy|Hy]; [auto|]. apply elem_of_list_singleton in Hy as ->.
        rewrite (H e' Hv) in Esel. done.
    + intros a (done & ds & vs & E1 & -> & E2 & E3 & E4 & E5). rewrite app_nil_r in E1. subst done. cbn [cok]. split; [by intros []|].
      exists es. split; [done|]. by exists ds, vs.
    + exists [], [], []. split; [done|]. split; [done|]. split; [done|]. split; [done|]. split; intros e H; by apply elem_of_nil in H.
  - (* GetAll *) split; [apply iterate_ok|]. intros r Hr. cbn [Post] in Hr. subst r. cbn [as_nodes].
    apply (c_loop_ok _ _ _ (fun rest a => exists done vs, es = done ++ rest /\ a = Some <$> vs /\ Forall2 ver done vs)) with (its := its) (es := es); [| |done..|].
    + intros it e rest a k' Hg Hit (done & vs & E1 & -> & E2) Hk'. cbn [c_all_body cok]. intros d Hd.
      destruct (Hit d Hd) as (e' & -> & Hv). cbn [rbind]. apply Hk'. exists (done ++ [e]), (vs ++ [e']).
      split; [by rewrite <- app_assoc|]. split; [by rewrite fmap_app|]. by apply Forall2_app; [|constructor].
    + intros a (done & vs & E1 & -> & E2). rewrite app_nil_r in E1. subst done. cbn [cok]. split; [by intros []|].
      cbn [g_seq snd]. rewrite Hall. by exists es, vs.
    + by exists [], [].
  - (* Size *) split; [apply iterate_ok|]. intros r Hr. cbn [Post] in Hr. subst r. cbn [as_nodes].
    destruct (Size_spec c n m g HG) as (es2 & He3 & Hsz). pose proof (entries_unique c m _ _ He3 He) as ->.
    apply (c_loop_ok _ _ _ (fun rest a => a + N.of_nat (length rest) = N.of_nat (length es))) with (its := its) (es := es); [| |done..|].
    + intros it e rest a k' Hg Hit E1 Hk'. cbn [c_size_body]. apply Hk'. cbn [length] in E1. lia.
    + intros a E1. cbn [length] in E1. cbn [cok]. split; [by intros []|]. cbn [g_seq snd g_outcome]. rewrite Hsz.
      replace a with (N.of_nat (length es)) by lia. done.
    + lia.
Qed.

Lemma Same_all d : Same d ->
  exists es es', g_get_all g = Ok (Some <$> es) /\ g_get_all d = Ok (Some <$> es') /\ Forall2 ver es es'.
Proof.
  intros (m' & HGd & _ & _ & Hq & Hv). destruct (get_all_spec c n m g HG) as (es & He & H1), (get_all_spec c n m' d HGd) as (es' & He' & H2).
  exists es, es'. split; [done|]. split; [done|]. pose proof (entries_eids m m' es es' He He' Hq) as HF.
  apply Forall2_same_length_lookup_2; [by eapply Forall2_length|]. intros i e e' Hi Hi'.
  destruct (Forall2_lookup_lr _ _ _ _ _ _ HF Hi Hi') as [Hid Hm']. split; [done|]. destruct (Hv _ _ Hm') as [H|H]; [left|by right].
  assert (Hin : e ∈ es) by (by eapply elem_of_list_lookup_2). apply He in Hin. rewrite Hin in H. by injection H.
Qed.

Lemma over_run sched s : sys_run meth (g_system c g todo) sched = Some s ->
  Same (sy_data s) /\
  forall k r, EEnd k r ∈ sy_hist s -> exists o, call_of todo k = Some o /\ Qcall o r.
Proof.
  intros Hrun. unfold g_system in Hrun.
  apply (run_stable meth Same Post (map (map (gcall_client c g)) todo) (fun k r => exists o, call_of todo k = Some o /\ Qcall o r)) in Hrun;
    [by apply Hrun| |apply Same_g].
  intros k p Hk. rewrite call_of_map in Hk. destruct (call_of todo k) as [o|] eqn:Ek; [|done]. injection Hk as <-.
  pose proof (call_ok k o Ek) as H. revert H. generalize (gcall_client c g o). intros q. clear -Ek.
  induction q as [a|o' kk IH|kk IH]; cbn [cok]; [eauto|intros [H1 H2]; auto|auto].
Qed.
End over.
