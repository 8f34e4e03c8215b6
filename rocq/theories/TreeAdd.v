(** Set and Add on the representation. *)
From Verif Require Export TreeHeap.
From Coq Require Import Lia ZifyBool ZifyNat ZifyN.
Local Open Scope N_scope.

Lemma l_add_nonempty {T} mf uf (v : T) vs : fst (l_add mf uf v vs) <> [].
Proof.
  unfold l_add. destruct mf as [m|]; [|by destruct vs].
  destruct (list_find _ vs) as [[k y]|] eqn:H; [|by destruct vs].
  apply list_find_Some in H as (H & _). destruct vs as [|a vs]; [done|].
  destruct uf as [u|]; [|done]. by destruct k.
Qed.

Definition redirect (i j : N) (pn : node) : node :=
  if n_left pn =? i then set_left j pn else set_right j pn.

Lemma redirect_same i pn : n_left pn = i \/ n_right pn = i -> redirect i i pn = pn.
Proof.
  unfold redirect. destruct pn as [l r a b n]. cbn. intros H.
  destruct (N.eqb_spec l i) as [->|Hne]; [done|]. destruct H as [? | ->]; done.
Qed.

Section Add.
Context {T : Type} {Hkb : kbound T} (zero : T) (c : idcfg).
Notation w := (id_w c).
Context {Hwide : wide T c}.
Let Hw64 : w <= 64. Proof. destruct (@wide_64 T Hkb c Hwide) as [[? _]|[? _]]; lia. Qed.
Let Hw0 : 0 < w. Proof. apply Hwide. Qed.
Notation K := (2 ^ kbound_of T w).
Notation tree := (tree T).
Notation rep := (rep zero c).
Notation same := (same zero c).
Notation vsame := (vsame zero c).
Notation taken := (taken c).
Notation fresh := (@fresh T).
Notation alloc_ok := (alloc_ok c).
Notation can := (can c).
Notation cfg_ok := (cfg_ok c).
Notation vals_at := (vals_at zero).

(** What an insertion below node [p] achieves: [t] (at index [i]) becomes [t']. *)
Record added (s s' : tree) (p i : N) (pn : node) (t t' : gt T) (q : list bool) (vs : list T)
    (nw : list N) (f : N -> node -> node) : Prop := Added {
  ad_taken : taken s s' nw;
  ad_rep : rep s' (root t') t';
  ad_fp : fp t' ≡ₚ nw ++ fp t;
  ad_look : forall q', glook t' q' = if decide (q' = q) then vs else glook t q';
  ad_p : t_nodes s' !! p = Some (f (root t') pn);
  ad_pv : vsame s s' p;
  ad_frame : forall j, j < K -> j ∉ fp t -> j ∉ nw -> j <> p -> same s s' j }.

Lemma vsame_vals (s s' : tree) j : t_vals s' = t_vals s -> vsame s s' j.
Proof. intros H k _. unfold val_at. by rewrite H. Qed.

Lemma replace_child_spec (s : tree) p i j pn : t_nodes s !! p = Some pn -> n_left pn = i \/ n_right pn = i ->
  replace_child s p i j = Ok (with_nodes s (<[p := redirect i j pn]> (t_nodes s))).
Proof.
  intros Hp Hi. unfold replace_child. rewrite (get_node_eq s p pn Hp). cbn [rbind]. unfold redirect.
  destruct (N.eqb_spec (n_left pn) i) as [He|Hne].
  - by rewrite (upd_node_eq s p _ pn Hp).
  - destruct Hi as [?|Hi]; [done|]. rewrite (proj2 (N.eqb_eq _ _) Hi). by rewrite (upd_node_eq s p _ pn Hp).
Qed.

Lemma prefix_bits x : bits w (i_id x) (length (prefix w x)) = prefix w x.
Proof. by rewrite prefix_length. Qed.

(** A new leaf. *)
Lemma add_leaf_spec s p d x v mf uf pn :
  cfg_ok s -> alloc_ok s -> can 1 s -> t_nodes s !! p = Some pn -> ~ fresh s p -> p < K ->
  idok c x -> N.of_nat (length (fst (l_add mf uf v (@nil T)))) <= 2 ^ w ->
  exists s' t' nw, add_leaf zero s p d x v mf uf =
      Ok (s', (snd (l_add mf uf v []), N.of_nat (length (fst (l_add mf uf v (@nil T)))))) /\
    added s s' p 0 pn GNil t' (prefix w x) (fst (l_add mf uf v [])) nw
      (fun j n => if d then set_right j n else set_left j n) /\
    exists j, t' = GNode j (prefix w x) (fst (l_add mf uf v [])) GNil GNil.
Proof.
  intros Hc Ha Hcan Hp Hfp HpK Hx Hlen. unfold add_leaf.
  destruct (new_node_spec c s x (i_len x) 0 Ha Hcan)
    as (s1 & j & -> & Hj0 & Hj1 & HjK & Hjn & Hn1 & Hv1 & Htk & _). cbn [rbind fst snd].
  assert (Hjf : fresh s j) by (apply Htk, elem_of_list_singleton; done).
  assert (Hjp : j <> p) by (by intros ->).
  assert (Hc1 : cfg_ok s1). { destruct Hc. split; [by rewrite (tk_len _ _ _ _ Htk)|by rewrite (tk_fn _ _ _ _ Htk)]. }
  destruct (add_val_spec zero c s1 v j mf uf (Node 0 0 (i_id x) (i_len x) 0) [] Hc1 HjK)
    as (s2 & -> & Hn2 & Hctl & Hvs & Hvf); [by rewrite Hn1, lookup_insert|done|done|done|].
  cbn [rbind fst snd]. set (vs := fst (l_add mf uf v [])) in *. clearbody vs.
  set (nj := set_cnt (N.of_nat (length vs)) (Node 0 0 (i_id x) (i_len x) 0)) in *.
  assert (Hp2 : t_nodes s2 !! p = Some pn).
  { rewrite Hn2, Hn1. by rewrite !lookup_insert_ne by done. }
  set (f := fun k n => if d then set_right k n else set_left k n).
  assert (Hf : (if d then set_right j else set_left j) = f j) by (unfold f; by destruct d).
  rewrite Hf. rewrite (upd_node_eq s2 p _ pn Hp2). cbn [rbind].
  set (s3 := with_nodes s2 _).
  assert (Hj3 : t_nodes s3 !! j = Some nj).
  { cbn [s3 with_nodes t_nodes]. rewrite lookup_insert_ne by done. by rewrite Hn2, lookup_insert. }
  rewrite (get_node_eq s3 j nj Hj3). cbn [rbind].
  assert (Hctl13 : ctl_same s1 s3) by (eapply ctl_trans; [exact Hctl|apply ctl_nodes]).
  assert (Hdom : forall k, is_Some (t_nodes s3 !! k) <-> is_Some (t_nodes s1 !! k)).
  { intros k. cbn [s3 with_nodes t_nodes]. destruct (decide (k = p)) as [->|Hk].
    - rewrite lookup_insert, Hn1, lookup_insert_ne, Hp by done. by split; eexists.
    - rewrite lookup_insert_ne by done. rewrite Hn2. destruct (decide (k = j)) as [->|Hkj].
      + rewrite lookup_insert, Hn1, lookup_insert. by split; eexists.
      + by rewrite lookup_insert_ne. }
  assert (Htk3 : taken s s3 [j]).
  { apply (taken_ctl_r c s s1 s3); [done|done|]. apply (alloc_ctl c s1 s3); [done|done|apply Htk]. }
  assert (Hvf3 : forall k, k < K -> k <> j -> vsame s s3 k).
  { intros k Hk Hkj. intros z Hz. unfold val_at. cbn [s3 with_nodes t_vals].
    rewrite <- (slot_ctl s s1) by apply Htk. specialize (Hvf k Hk Hkj z Hz). unfold val_at in Hvf. by rewrite Hvf, Hv1. }
  exists s3, (GNode j (prefix w x) vs GNil GNil), [j]. split; [done|]. split; [|by exists j].
  constructor.
  - done.
  - cbn [root TreeHeap.rep]. split; [done|]. split; [done|]. split; [done|]. split; [done|]. exists nj.
    split; [done|]. rewrite prefix_length. cbn [nj set_cnt n_len n_id n_cnt n_left n_right].
    split; [lia|]. split; [done|]. split; [done|]. split; [|done].
    intros k y Hy. exact (Hvs k y Hy).
  - done.
  - intros q'. cbn [glook]. destruct (strip (prefix w x) q') as [q2|] eqn:Hs.
    + apply strip_Some in Hs as ->. destruct q2 as [|a q2].
      * rewrite app_nil_r. by rewrite decide_True.
      * rewrite decide_False; [by destruct a|]. intros H. rewrite <- (app_nil_r (prefix w x)) in H at 2.
        by apply app_inv_head in H.
    + rewrite decide_False; [done|]. intros ->. apply (strip_None _ _ Hs []). by rewrite app_nil_r.
  - cbn [s3 with_nodes t_nodes root]. by rewrite lookup_insert.
  - apply Hvf3; [done|]. by apply not_eq_sym.
  - intros k Hk _ Hkj Hkp. assert (Hkj' : k <> j) by (intros ->; by apply Hkj, elem_of_list_singleton).
    split; [|by apply Hvf3].
    cbn [s3 with_nodes t_nodes]. rewrite lookup_insert_ne by done. rewrite Hn2, lookup_insert_ne by done.
    by rewrite Hn1, lookup_insert_ne.
Qed.

Lemma rep_lt_K s i t j : rep s i t -> j ∈ fp t -> j < K.
Proof. intros H Hj. by eapply rep_dom. Qed.

(** Lookup after the three ways of changing a node. *)
Lemma look_same i b vs vs' l r (q' : list bool) :
  glook (GNode i b vs' l r : gt T) q' = if decide (q' = b) then vs' else glook (GNode i b vs l r) q'.
Proof.
  cbn [glook]. destruct (strip b q') as [q2|] eqn:Hs.
  - apply strip_Some in Hs as ->. destruct q2 as [|a q2].
    + by rewrite app_nil_r, decide_True.
    + rewrite decide_False; [done|]. intros H. rewrite <- (app_nil_r b) in H at 2. by apply app_inv_head in H.
  - rewrite decide_False; [done|]. intros ->. apply (strip_None _ _ Hs []). by rewrite app_nil_r.
Qed.

Lemma app_cons_ne (b : list bool) a q : b ++ a :: q <> b.
Proof. intros H. rewrite <- (app_nil_r b) in H at 2. by apply app_inv_head in H. Qed.

Lemma strip_self_nil (b : list bool) : strip b b = Some [].
Proof. rewrite <- (app_nil_r b) at 2. apply strip_self. Qed.

Lemma look_parent i j q h b2 vs vs' l r (q' : list bool) :
  glook (GNode j q vs' (if h : bool then GNil else GNode i (h :: b2) vs l r)
                       (if h then GNode i (h :: b2) vs l r else GNil) : gt T) q' =
  if decide (q' = q) then vs' else glook (GNode i (q ++ h :: b2) vs l r) q'.
Proof.
  cbn [glook]. rewrite strip_app. destruct (strip q q') as [q2|] eqn:Hs.
  - apply strip_Some in Hs as ->. destruct q2 as [|a q2].
    + by rewrite app_nil_r, decide_True.
    + rewrite decide_False by apply app_cons_ne.
      destruct h, a; cbn [glook strip Bool.eqb]; done.
  - rewrite decide_False; [done|]. intros ->. by rewrite strip_self_nil in Hs.
Qed.

Lemma look_below i b vs l r l' r' d q2 vs' (q' : list bool) :
  (forall q'', glook (child d l' r' : gt T) q'' = if decide (q'' = d :: q2) then vs' else glook (child d l r) q'') ->
  child (negb d) l' r' = child (negb d) l r ->
  glook (GNode i b vs l' r') q' = if decide (q' = b ++ d :: q2) then vs' else glook (GNode i b vs l r) q'.
Proof.
  intros Hc Ho. cbn [glook]. destruct (strip b q') as [q3|] eqn:Hs.
  - apply strip_Some in Hs as ->. destruct q3 as [|a q3].
    + rewrite app_nil_r. rewrite decide_False; [done|]. intros H. symmetry in H. by apply app_cons_ne in H.
    + assert (Hd : decide (b ++ a :: q3 = b ++ d :: q2) = decide (b ++ a :: q3 = b ++ d :: q2)) by done.
      destruct (decide (a = d)) as [->|Had].
      * change (if d then r' else l') with (child d l' r'). change (if d then r else l) with (child d l r).
        rewrite Hc. destruct (decide (d :: q3 = d :: q2)) as [He|Hne].
        -- by rewrite He, decide_True.
        -- rewrite decide_False; [done|]. intros H. by apply app_inv_head in H.
      * rewrite decide_False; [|intros H; apply app_inv_head in H; congruence].
        destruct d, a; cbn in Ho |- *; congruence.
  - rewrite decide_False; [done|]. intros ->. by rewrite strip_self in Hs.
Qed.

Lemma look_split i j k m h b2 q2 vs vs' l r (q' : list bool) :
  glook (GNode j m [] (if h : bool then GNode k (negb h :: q2) vs' GNil GNil else GNode i (h :: b2) vs l r)
                      (if h then GNode i (h :: b2) vs l r else GNode k (negb h :: q2) vs' GNil GNil) : gt T) q' =
  if decide (q' = m ++ negb h :: q2) then vs' else glook (GNode i (m ++ h :: b2) vs l r) q'.
Proof.
  cbn [glook]. rewrite strip_app. destruct (strip m q') as [q3|] eqn:Hs.
  - apply strip_Some in Hs as ->. destruct q3 as [|a q3].
    + rewrite app_nil_r. rewrite decide_False; [done|]. intros H. symmetry in H. by apply app_cons_ne in H.
    + destruct (decide (a = h)) as [->|Ha].
      * rewrite decide_False.
        2: { intros H. apply app_inv_head in H. injection H as H _. by destruct h. }
        by destruct h.
      * assert (a = negb h) as -> by (by destruct a, h).
        assert (E1 : glook (if negb h then if h then GNode i (h :: b2) vs l r else GNode k (negb h :: q2) vs' GNil GNil
              else if h then GNode k (negb h :: q2) vs' GNil GNil else GNode i (h :: b2) vs l r) (negb h :: q3) =
              glook (GNode k (negb h :: q2) vs' GNil GNil) (negb h :: q3)) by (by destruct h).
        rewrite E1. cbn [glook strip]. rewrite Bool.eqb_reflx.
        assert (E2 : Bool.eqb h (negb h) = false) by (by destruct h). rewrite E2.
        destruct (strip q2 q3) as [q4|] eqn:Hs2.
        -- apply strip_Some in Hs2 as ->. destruct q4 as [|a q4].
           ++ by rewrite app_nil_r, decide_True.
           ++ rewrite decide_False; [by destruct a|]. intros H. apply app_inv_head in H. injection H as H.
              by apply app_cons_ne in H.
        -- rewrite decide_False; [done|]. intros H. apply app_inv_head in H. injection H as ->.
           by rewrite strip_self_nil in Hs2.
  - rewrite decide_False; [done|]. intros ->. by rewrite strip_self in Hs.
Qed.

(** A subtree [t] at index [i] below node [p]. *)
Record site (s : tree) (p i : N) (pn : node) (t : gt T) : Prop := Site {
  si_cfg : cfg_ok s;
  si_alloc : alloc_ok s;
  si_rep : rep s i t;
  si_nodup : NoDup (fp t);
  si_live : forall j, j ∈ fp t -> ~ fresh s j;
  si_p : t_nodes s !! p = Some pn;
  si_pt : p ∉ fp t;
  si_pl : ~ fresh s p;
  si_pK : p < K;
  si_side : n_left pn = i \/ n_right pn = i }.

(** The same prefix: only the values change. *)
Lemma add_here s p i pn b vs l r v mf uf :
  site s p i pn (GNode i b vs l r) ->
  N.of_nat (length (fst (l_add mf uf v vs))) <= 2 ^ w ->
  exists s', add_val zero s v i mf uf = Ok (s', snd (l_add mf uf v vs)) /\
    (exists nd, t_nodes s' !! i = Some nd /\ n_cnt nd = N.of_nat (length (fst (l_add mf uf v vs)))) /\
    added s s' p i pn (GNode i b vs l r) (GNode i b (fst (l_add mf uf v vs)) l r) b (fst (l_add mf uf v vs)) []
      (fun j n => redirect i j n).
Proof.
  intros [Hc Ha Hrep Hnd Hlive Hp Hpt Hpl HpK Hside] Hlen.
  pose proof Hrep as (_ & Hi0 & HiK & Hvl & nd & N1 & N2 & N3 & N4 & N5 & N6 & N7).
  destruct (add_val_spec zero c s v i mf uf nd vs Hc HiK N1 N4 N5 Hlen)
    as (s' & Hs' & Hn' & Hctl & Hv' & Hvf). set (vs' := fst (l_add mf uf v vs)) in *.
  assert (Hl' : t_length s' = t_length s) by apply Hctl.
  assert (Hi' : t_nodes s' !! i = Some (set_cnt (N.of_nat (length vs')) nd)) by (by rewrite Hn', lookup_insert).
  exists s'. split; [done|]. split; [by eexists|].
  cbn [fp] in Hnd, Hpt, Hlive. apply NoDup_cons in Hnd as [Hil Hnd].
  assert (Hpi : p <> i) by (intros ->; apply Hpt; left).
  assert (Hoth : forall j, j < K -> j <> i -> same s s' j).
  { intros j HjK Hji. split; [by rewrite Hn', lookup_insert_ne|by apply Hvf]. }
  constructor.
  - apply (taken_nil c s s'); [done|]. apply (alloc_ctl c s s'); [done| |done].
    intros j. rewrite Hn'. destruct (decide (j = i)) as [->|Hji].
    + rewrite lookup_insert, N1. by split; eexists.
    + by rewrite lookup_insert_ne.
  - cbn [root TreeHeap.rep]. split; [done|]. split; [done|]. split; [done|]. split; [done|].
    eexists. split; [done|]. cbn [set_cnt n_len n_id n_cnt n_left n_right].
    split; [done|]. split; [done|]. split; [done|]. split; [done|]. split.
    + apply (rep_frame zero c s s'); [done| |done]. intros j Hj. apply Hoth.
      * exact (rep_lt_K s _ l j N6 Hj).
      * intros ->. apply Hil, elem_of_app. by left.
    + apply (rep_frame zero c s s'); [done| |done]. intros j Hj. apply Hoth.
      * exact (rep_lt_K s _ r j N7 Hj).
      * intros ->. apply Hil, elem_of_app. by right.
  - done.
  - intros q'. apply look_same.
  - cbn [root]. rewrite redirect_same by done. rewrite Hn', lookup_insert_ne by done. done.
  - by apply Hvf.
  - intros j HjK Hj _ Hjp. apply Hoth; [done|]. intros ->. apply Hj. left.
Qed.

(** The id is a proper prefix of the node: a new parent. *)
Lemma add_parent s p i pn b2 h vs l r x v mf uf :
  site s p i pn (GNode i (prefix w x ++ h :: b2) vs l r) -> can 1 s -> idok c x ->
  (length (prefix w x ++ h :: b2) <= N.to_nat w)%nat ->
  N.of_nat (length (fst (l_add mf uf v (@nil T)))) <= 2 ^ w ->
  exists s' j, 
    (do a <- new_node s x (i_len x);
     let j := snd a in
     do b <- add_val zero (fst a) v j mf uf;
     do s1 <- upd_node (fst b) i (shift_length (i_len x));
     do nd' <- get_node s1 i;
     do lb <- left_bit s1 (n_id nd');
     do s2 <- upd_node s1 j (if lb then set_right i else set_left i);
     do s3 <- replace_child s2 p i j;
     do ndj <- get_node s3 j;
     Ok (s3, (snd b, n_cnt ndj))) =
      Ok (s', (snd (l_add mf uf v []), N.of_nat (length (fst (l_add mf uf v (@nil T)))))) /\
    added s s' p i pn (GNode i (prefix w x ++ h :: b2) vs l r)
      (GNode j (prefix w x) (fst (l_add mf uf v []))
         (if h : bool then GNil else GNode i (h :: b2) vs l r)
         (if h then GNode i (h :: b2) vs l r else GNil))
      (prefix w x) (fst (l_add mf uf v [])) [j] (fun j n => redirect i j n).
Proof.
  intros [Hc Ha Hrep Hnd Hlive Hp Hpt Hpl HpK Hside] Hcan Hx Hbw Hlen.
  pose proof Hrep as (_ & Hi0 & HiK & Hvl & nd & N1 & N2 & N3 & N4 & N5 & N6 & N7).
  cbn [fp] in Hnd, Hpt, Hlive. apply NoDup_cons in Hnd as [Hil Hnd].
  assert (Hpi : p <> i) by (intros ->; apply Hpt; left).
  destruct (new_node_spec c s x (i_len x) 0 Ha Hcan)
    as (s1 & j & -> & Hj0 & Hj1 & HjK & Hjn & Hn1 & Hv1 & Htk & _). cbn [rbind fst snd].
  assert (Hjf : fresh s j) by (apply Htk, elem_of_list_singleton; done).
  assert (Hjp : j <> p) by (by intros ->).
  assert (Hjt : j ∉ i :: fp l ++ fp r) by (intros H; by apply (Hlive j H)).
  assert (Hji : j <> i) by (intros ->; apply Hjt; left).
  assert (Hc1 : cfg_ok s1). { destruct Hc. split; [by rewrite (tk_len _ _ _ _ Htk)|by rewrite (tk_fn _ _ _ _ Htk)]. }
  destruct (add_val_spec zero c s1 v j mf uf (Node 0 0 (i_id x) (i_len x) 0) [] Hc1 HjK)
    as (s2 & -> & Hn2 & Hctl & Hvs & Hvf); [by rewrite Hn1, lookup_insert|done|done|done|].
  cbn [rbind fst snd]. set (vs' := fst (l_add mf uf v [])) in *. clearbody vs'.
  set (nj := set_cnt (N.of_nat (length vs')) (Node 0 0 (i_id x) (i_len x) 0)) in *.
  rewrite app_length, prefix_length in N2, Hbw. cbn [length] in N2, Hbw.
  set (ni := Node (n_left nd) (n_right nd) (ushl 64 (n_id nd) (i_len x)) (n_len nd - i_len x) (n_cnt nd)).
  assert (Hni : shift_length (i_len x) nd = ni).
  { rewrite <- (N2Nat.id (i_len x)). rewrite shift_length_fields by lia. unfold ni. by rewrite N2Nat.id. }
  assert (Hi2 : t_nodes s2 !! i = Some nd).
  { rewrite Hn2, Hn1. by rewrite !lookup_insert_ne by done. }
  rewrite (upd_node_eq s2 i _ nd Hi2), Hni. cbn [rbind].
  set (s3 := with_nodes s2 _).
  assert (Hi3 : t_nodes s3 !! i = Some ni) by (cbn [s3 with_nodes t_nodes]; by rewrite lookup_insert).
  rewrite (get_node_eq s3 i ni Hi3). cbn [rbind].
  assert (Hbits : bits w (ushl 64 (n_id nd) (i_len x)) (S (length b2)) = h :: b2).
  { pose proof (bits_shift w (n_id nd) (N.to_nat (i_len x)) (N.to_nat (i_len x) + S (length b2)) 64) as Hsh.
    rewrite N2Nat.id in Hsh. replace (N.to_nat (i_len x) + S (length b2) - N.to_nat (i_len x))%nat with (S (length b2)) in Hsh by lia.
    rewrite Hsh by lia. rewrite app_length, prefix_length in N3. cbn [length] in N3. rewrite N3.
    rewrite <- prefix_length with (w := w). by rewrite drop_app. }
  assert (Hlb : left_bit s3 (n_id ni) = Ok h).
  { unfold left_bit. assert (t_leftfn s3 = Some (is_left_bit_set_fn c)) as ->.
    { destruct Hctl as (E & _). cbn [s3 with_nodes t_leftfn]. rewrite E. apply Hc1. }
    f_equal. cbn [ni n_id]. pose proof (is_left_fn_bits c (ushl 64 (n_id nd) (i_len x)) (length b2) Hw0) as Hh.
    rewrite Hbits in Hh. cbn [head] in Hh. by injection Hh as <-. }
  rewrite Hlb. cbn [rbind].
  assert (Hj3 : t_nodes s3 !! j = Some nj).
  { cbn [s3 with_nodes t_nodes]. rewrite lookup_insert_ne by done. by rewrite Hn2, lookup_insert. }
  rewrite (upd_node_eq s3 j _ nj Hj3). cbn [rbind].
  set (nj' := (if h then set_right i else set_left i) nj).
  set (s4 := with_nodes s3 _).
  assert (Hp4 : t_nodes s4 !! p = Some pn).
  { cbn [s4 s3 with_nodes t_nodes]. rewrite !lookup_insert_ne by done. rewrite Hn2, Hn1.
    by rewrite !lookup_insert_ne by done. }
  rewrite (replace_child_spec s4 p i j pn Hp4 Hside). cbn [rbind].
  set (s5 := with_nodes s4 _).
  assert (Hj5 : t_nodes s5 !! j = Some nj').
  { cbn [s5 with_nodes t_nodes]. rewrite lookup_insert_ne by done.
    cbn [s4 with_nodes t_nodes]. by rewrite lookup_insert. }
  assert (Hi5 : t_nodes s5 !! i = Some ni).
  { cbn [s5 with_nodes t_nodes]. rewrite lookup_insert_ne by done.
    cbn [s4 with_nodes t_nodes]. by rewrite lookup_insert_ne by done. }
  rewrite (get_node_eq s5 j nj' Hj5). cbn [rbind].
  assert (Hcnt : n_cnt nj' = N.of_nat (length vs')) by (unfold nj'; by destruct h).
  rewrite Hcnt. exists s5, j. split; [done|].
  assert (Hctl15 : ctl_same s1 s5).
  { eapply ctl_trans; [exact Hctl|]. by repeat split. }
  assert (Hnodes : forall k, k <> i -> k <> j -> k <> p -> t_nodes s5 !! k = t_nodes s !! k).
  { intros k Hki Hkj Hkp. cbn [s5 s4 s3 with_nodes t_nodes]. rewrite !lookup_insert_ne by done.
    rewrite Hn2, Hn1. by rewrite !lookup_insert_ne by done. }
  assert (Hdom : forall k, is_Some (t_nodes s5 !! k) <-> is_Some (t_nodes s1 !! k)).
  { intros k. rewrite Hn1. destruct (decide (k = j)) as [->|Hkj].
    { rewrite Hj5, lookup_insert. by split; eexists. }
    rewrite lookup_insert_ne by done. destruct (decide (k = i)) as [->|Hki].
    { rewrite Hi5, N1. by split; eexists. }
    destruct (decide (k = p)) as [->|Hkp].
    { cbn [s5 with_nodes t_nodes]. rewrite lookup_insert, Hp. by split; eexists. }
    by rewrite Hnodes. }
  assert (Hvf5 : forall k, k < K -> k <> j -> vsame s s5 k).
  { intros k Hk Hkj z Hz. unfold val_at. cbn [s5 s4 s3 with_nodes t_vals].
    rewrite <- (slot_ctl s s1) by apply Htk. specialize (Hvf k Hk Hkj z Hz). unfold val_at in Hvf. by rewrite Hvf, Hv1. }
  assert (Hl5 : t_length s5 = t_length s).
  { destruct Hctl15 as (_ & E & _). rewrite E. apply Htk. }
  assert (Hsub : forall k, k ∈ fp l ++ fp r -> k < K -> same s s5 k).
  { intros k Hk HkK. assert (Hki : k <> i) by (by intros ->).
    assert (Hkj : k <> j) by (intros ->; apply Hjt; by right).
    assert (Hkp : k <> p) by (intros ->; apply Hpt; by right).
    split; [by apply Hnodes|by apply Hvf5]. }
  assert (Hri : rep s5 i (GNode i (h :: b2) vs l r)).
  { cbn [TreeHeap.rep]. split; [done|]. split; [done|]. split; [done|]. split; [done|].
    exists ni. split; [done|]. cbn [ni n_len n_id n_cnt n_left n_right length].
    split; [lia|]. split; [done|]. split; [done|].
    split. { apply (vals_at_same zero c s s5); [done|apply Hvf5; [done|by apply not_eq_sym]|done|done]. }
    split.
    - apply (rep_frame zero c s s5); [done| |done]. intros k Hk. apply Hsub; [apply elem_of_app; by left|].
      exact (rep_lt_K s _ l k N6 Hk).
    - apply (rep_frame zero c s s5); [done| |done]. intros k Hk. apply Hsub; [apply elem_of_app; by right|].
      exact (rep_lt_K s _ r k N7 Hk). }
  constructor.
  - apply (taken_ctl_r c s s1 s5); [done|done|]. apply (alloc_ctl c s1 s5); [done|done|apply Htk].
  - cbn [root TreeHeap.rep]. split; [done|]. split; [done|]. split; [done|]. split; [done|]. exists nj'.
    split; [done|]. rewrite prefix_length.
    assert (E1 : n_len nj' = i_len x) by (unfold nj'; by destruct h).
    assert (E2 : n_id nj' = i_id x) by (unfold nj'; by destruct h). rewrite E1, E2.
    split; [lia|]. split; [done|]. split; [done|]. split.
    + intros k y Hy. exact (Hvs k y Hy).
    + unfold nj'. by destruct h.
  - cbn [fp app]. apply Permutation_cons; [done|]. destruct h; cbn [fp app]; by rewrite ?app_nil_r.
  - intros q'. apply look_parent.
  - cbn [s5 with_nodes t_nodes root]. by rewrite lookup_insert.
  - apply Hvf5; [done|]. by apply not_eq_sym.
  - intros k Hk Hkt Hkj Hkp. assert (Hkj' : k <> j) by (intros ->; by apply Hkj, elem_of_list_singleton).
    assert (Hki : k <> i) by (intros ->; apply Hkt; left).
    split; [by apply Hnodes|by apply Hvf5].
Qed.

(** A partial match: the node is split. *)
Lemma add_split s p i pn m b2 q2 h vs l r x v mf uf :
  site s p i pn (GNode i (m ++ h :: b2) vs l r) -> can 2 s -> idok c x ->
  prefix w x = m ++ negb h :: q2 ->
  (length (m ++ h :: b2) <= N.to_nat w)%nat ->
  N.of_nat (length (fst (l_add mf uf v (@nil T)))) <= 2 ^ w ->
  exists s' j k, 
    (do a <- new_node s x (N.of_nat (length m));
     let j := snd a in
     let x' := shift_left c x (N.of_nat (length m)) in
     do a' <- new_node (fst a) x' (i_len x');
     let k := snd a' in
     do b <- add_val zero (fst a') v k mf uf;
     do s1 <- upd_node (fst b) i (shift_length (N.of_nat (length m)));
     do nd' <- get_node s1 i;
     do lb <- left_bit s1 (n_id nd');
     do s2 <- upd_node s1 j
                (fun n => if lb then set_left k (set_right i n) else set_right k (set_left i n));
     do s3 <- replace_child s2 p i j;
     do ndk <- get_node s3 k;
     Ok (s3, (snd b, n_cnt ndk))) =
      Ok (s', (snd (l_add mf uf v []), N.of_nat (length (fst (l_add mf uf v (@nil T)))))) /\
    added s s' p i pn (GNode i (m ++ h :: b2) vs l r)
      (GNode j m [] (if h : bool then GNode k (negb h :: q2) (fst (l_add mf uf v [])) GNil GNil
                     else GNode i (h :: b2) vs l r)
                    (if h then GNode i (h :: b2) vs l r
                     else GNode k (negb h :: q2) (fst (l_add mf uf v [])) GNil GNil))
      (prefix w x) (fst (l_add mf uf v [])) [k; j] (fun j n => redirect i j n).
Proof.
  intros [Hc Ha Hrep Hnd Hlive Hp Hpt Hpl HpK Hside] Hcan Hx Hq Hbw Hlen.
  pose proof Hrep as (_ & Hi0 & HiK & Hvl & nd & N1 & N2 & N3 & N4 & N5 & N6 & N7).
  cbn [fp] in Hnd, Hpt, Hlive. apply NoDup_cons in Hnd as [Hil Hnd].
  assert (Hpi : p <> i) by (intros ->; apply Hpt; left).
  destruct (new_node_spec c s x (N.of_nat (length m)) 1 Ha Hcan)
    as (s0 & j & -> & Hj0 & Hj1 & HjK & Hjn & Hn0 & Hv0 & Htk0 & Hcan0). cbn [rbind fst snd].
  assert (Hjf : fresh s j) by (apply Htk0, elem_of_list_singleton; done).
  assert (Hjp : j <> p) by (by intros ->).
  assert (Hjt : j ∉ i :: fp l ++ fp r) by (intros H; by apply (Hlive j H)).
  assert (Hji : j <> i) by (intros ->; apply Hjt; left).
  assert (Hc0 : cfg_ok s0). { destruct Hc. split; [by rewrite (tk_len _ _ _ _ Htk0)|by rewrite (tk_fn _ _ _ _ Htk0)]. }
  assert (Hml : N.of_nat (length m) + N.of_nat (S (length q2)) = i_len x).
  { pose proof (prefix_length w x) as E. rewrite Hq, app_length in E. cbn [length] in E. lia. }
  destruct (shift_left_prefix c x (length m) Hx) as (Hx' & Hpx' & Hlx'); [lia|lia|].
  rewrite Hq, drop_app in Hpx'. cbv zeta. set (x' := shift_left c x (N.of_nat (length m))) in *.
  destruct (new_node_spec c s0 x' (i_len x') 0 (tk_alloc _ _ _ _ Htk0) Hcan0)
    as (s1 & k & -> & Hk0 & Hk1 & HkK & Hkn & Hn1 & Hv1 & Htk1 & _). cbn [rbind fst snd].
  assert (Hkf0 : fresh s0 k) by (apply Htk1, elem_of_list_singleton; done).
  apply (tk_fresh _ _ _ _ Htk0) in Hkf0 as [Hkf Hkj0].
  assert (Hkj : k <> j) by (intros ->; by apply Hkj0, elem_of_list_singleton).
  assert (Hkp : k <> p) by (by intros ->).
  assert (Hkt : k ∉ i :: fp l ++ fp r) by (intros H; by apply (Hlive k H)).
  assert (Hki : k <> i) by (intros ->; apply Hkt; left).
  assert (Htk : taken s s1 [k; j]) by (by apply (taken_trans c s s0 s1 [j] [k])).
  assert (Hc1 : cfg_ok s1). { destruct Hc. split; [by rewrite (tk_len _ _ _ _ Htk)|by rewrite (tk_fn _ _ _ _ Htk)]. }
  destruct (add_val_spec zero c s1 v k mf uf (Node 0 0 (i_id x') (i_len x') 0) [] Hc1 HkK)
    as (s2 & -> & Hn2 & Hctl & Hvs & Hvf); [by rewrite Hn1, lookup_insert|done|done|done|].
  cbn [rbind fst snd]. set (vs' := fst (l_add mf uf v [])) in *. clearbody vs'.
  set (nk := set_cnt (N.of_nat (length vs')) (Node 0 0 (i_id x') (i_len x') 0)) in *.
  set (nj := Node 0 0 (i_id x) (N.of_nat (length m)) 0) in *.
  rewrite app_length in N2, Hbw. cbn [length] in N2, Hbw.
  set (ni := Node (n_left nd) (n_right nd) (ushl 64 (n_id nd) (N.of_nat (length m))) (n_len nd - N.of_nat (length m)) (n_cnt nd)).
  assert (Hni : shift_length (N.of_nat (length m)) nd = ni) by (apply shift_length_fields; lia).
  assert (Hi2 : t_nodes s2 !! i = Some nd).
  { rewrite Hn2, Hn1, Hn0. by rewrite !lookup_insert_ne by done. }
  rewrite (upd_node_eq s2 i _ nd Hi2), Hni. cbn [rbind].
  set (s3 := with_nodes s2 _).
  assert (Hi3 : t_nodes s3 !! i = Some ni) by (cbn [s3 with_nodes t_nodes]; by rewrite lookup_insert).
  rewrite (get_node_eq s3 i ni Hi3). cbn [rbind].
  assert (Hbits : bits w (ushl 64 (n_id nd) (N.of_nat (length m))) (S (length b2)) = h :: b2).
  { pose proof (bits_shift w (n_id nd) (length m) (length m + S (length b2)) 64) as Hsh.
    replace (length m + S (length b2) - length m)%nat with (S (length b2)) in Hsh by lia.
    rewrite Hsh by lia. rewrite app_length in N3. cbn [length] in N3. rewrite N3. by rewrite drop_app. }
  assert (Hlb : left_bit s3 (n_id ni) = Ok h).
  { unfold left_bit. assert (t_leftfn s3 = Some (is_left_bit_set_fn c)) as ->.
    { destruct Hctl as (E & _). cbn [s3 with_nodes t_leftfn]. rewrite E. apply Hc1. }
    f_equal. cbn [ni n_id]. pose proof (is_left_fn_bits c (ushl 64 (n_id nd) (N.of_nat (length m))) (length b2) Hw0) as Hh.
    rewrite Hbits in Hh. cbn [head] in Hh. by injection Hh as <-. }
  rewrite Hlb. cbn [rbind].
  assert (Hj3 : t_nodes s3 !! j = Some nj).
  { cbn [s3 with_nodes t_nodes]. rewrite lookup_insert_ne by done. rewrite Hn2, Hn1, Hn0.
    rewrite !lookup_insert_ne by done. by rewrite lookup_insert. }
  rewrite (upd_node_eq s3 j _ nj Hj3). cbn [rbind].
  set (nj' := if h then set_left k (set_right i nj) else set_right k (set_left i nj)).
  set (s4 := with_nodes s3 _).
  assert (Hp4 : t_nodes s4 !! p = Some pn).
  { cbn [s4 s3 with_nodes t_nodes]. rewrite !lookup_insert_ne by done. rewrite Hn2, Hn1, Hn0.
    by rewrite !lookup_insert_ne by done. }
  rewrite (replace_child_spec s4 p i j pn Hp4 Hside). cbn [rbind].
  set (s5 := with_nodes s4 _).
  assert (Hj5 : t_nodes s5 !! j = Some nj').
  { cbn [s5 with_nodes t_nodes]. rewrite lookup_insert_ne by done.
    cbn [s4 with_nodes t_nodes]. by rewrite lookup_insert. }
  assert (Hi5 : t_nodes s5 !! i = Some ni).
  { cbn [s5 with_nodes t_nodes]. rewrite lookup_insert_ne by done.
    cbn [s4 with_nodes t_nodes]. by rewrite lookup_insert_ne by done. }
  assert (Hk5 : t_nodes s5 !! k = Some nk).
  { cbn [s5 s4 s3 with_nodes t_nodes]. rewrite !lookup_insert_ne by done. by rewrite Hn2, lookup_insert. }
  rewrite (get_node_eq s5 k nk Hk5). cbn [rbind].
  exists s5, j, k. split; [done|].
  assert (Hctl15 : ctl_same s1 s5).
  { eapply ctl_trans; [exact Hctl|]. by repeat split. }
  assert (Hnodes : forall z, z <> i -> z <> j -> z <> k -> z <> p -> t_nodes s5 !! z = t_nodes s !! z).
  { intros z Hzi Hzj Hzk Hzp. cbn [s5 s4 s3 with_nodes t_nodes]. rewrite !lookup_insert_ne by done.
    rewrite Hn2, Hn1, Hn0. by rewrite !lookup_insert_ne by done. }
  assert (Hdom : forall z, is_Some (t_nodes s5 !! z) <-> is_Some (t_nodes s1 !! z)).
  { intros z. rewrite Hn1, Hn0. destruct (decide (z = k)) as [->|Hzk].
    { rewrite Hk5, lookup_insert. by split; eexists. }
    rewrite lookup_insert_ne by done. destruct (decide (z = j)) as [->|Hzj].
    { rewrite Hj5, lookup_insert. by split; eexists. }
    rewrite lookup_insert_ne by done. destruct (decide (z = i)) as [->|Hzi].
    { rewrite Hi5, N1. by split; eexists. }
    destruct (decide (z = p)) as [->|Hzp].
    { cbn [s5 with_nodes t_nodes]. rewrite lookup_insert, Hp. by split; eexists. }
    by rewrite Hnodes. }
  assert (Hvf5 : forall z, z < K -> z <> k -> vsame s s5 z).
  { intros z Hz Hzk y Hy. unfold val_at. cbn [s5 s4 s3 with_nodes t_vals].
    rewrite <- (slot_ctl s s1) by apply Htk. specialize (Hvf z Hz Hzk y Hy). unfold val_at in Hvf. by rewrite Hvf, Hv1, Hv0. }
  assert (Hl5 : t_length s5 = t_length s).
  { destruct Hctl15 as (_ & E & _). rewrite E. apply Htk. }
  assert (Hsub : forall z, z ∈ fp l ++ fp r -> z < K -> same s s5 z).
  { intros z Hz HzK. assert (Hzi : z <> i) by (by intros ->).
    assert (Hzj : z <> j) by (intros ->; apply Hjt; by right).
    assert (Hzk : z <> k) by (intros ->; apply Hkt; by right).
    assert (Hzp : z <> p) by (intros ->; apply Hpt; by right).
    split; [by apply Hnodes|by apply Hvf5]. }
  assert (Hri : rep s5 i (GNode i (h :: b2) vs l r)).
  { cbn [TreeHeap.rep]. split; [done|]. split; [done|]. split; [done|]. split; [done|].
    exists ni. split; [done|]. cbn [ni n_len n_id n_cnt n_left n_right length].
    split; [lia|]. split; [done|]. split; [done|].
    split. { apply (vals_at_same zero c s s5); [done|apply Hvf5; [done|by apply not_eq_sym]|done|done]. }
    split.
    - apply (rep_frame zero c s s5); [done| |done]. intros z Hz. apply Hsub; [apply elem_of_app; by left|].
      exact (rep_lt_K s _ l z N6 Hz).
    - apply (rep_frame zero c s s5); [done| |done]. intros z Hz. apply Hsub; [apply elem_of_app; by right|].
      exact (rep_lt_K s _ r z N7 Hz). }
  assert (Hrk : rep s5 k (GNode k (negb h :: q2) vs' GNil GNil)).
  { cbn [TreeHeap.rep]. split; [done|]. split; [done|]. split; [done|]. split; [done|].
    exists nk. split; [done|]. cbn [nk set_cnt n_len n_id n_cnt n_left n_right length].
    split; [lia|]. split.
    { rewrite <- Hpx'. unfold prefix. f_equal. lia. }
    split; [done|]. split; [|done].
    intros z y Hy. exact (Hvs z y Hy). }
  constructor.
  - apply (taken_ctl_r c s s1 s5); [done|done|]. apply (alloc_ctl c s1 s5); [done|done|apply Htk].
  - cbn [root TreeHeap.rep]. split; [done|]. split; [done|]. split; [done|].
    split; [cbn; apply N.le_0_l|]. exists nj'.
    split; [done|].
    assert (E1 : n_len nj' = N.of_nat (length m)) by (unfold nj'; by destruct h).
    assert (E2 : n_id nj' = i_id x) by (unfold nj'; by destruct h). rewrite E1, E2.
    split; [done|]. split.
    { pose proof (bits_take w (i_id x) (N.to_nat (i_len x)) (length m)) as E.
      fold (prefix w x) in E. rewrite Hq, take_app in E. rewrite Nat.min_l in E by lia. by rewrite <- E. }
    split; [unfold nj'; by destruct h|]. split; [done|].
    unfold nj'. by destruct h.
  - cbn [fp app]. destruct h; cbn [fp app].
    + rewrite Permutation_swap. by apply Permutation_cons, Permutation_cons.
    + change (j :: i :: (fp l ++ fp r) ++ [k]) with ((j :: i :: fp l ++ fp r) ++ [k]).
      by rewrite Permutation_app_comm.
  - intros q'. rewrite Hq. apply look_split.
  - cbn [s5 with_nodes t_nodes root]. by rewrite lookup_insert.
  - apply Hvf5; [done|]. by apply not_eq_sym.
  - intros z Hz Hzt Hznw Hzp. rewrite elem_of_cons, elem_of_list_singleton in Hznw.
    assert (Hzi : z <> i) by (intros ->; apply Hzt; left).
    split; [apply Hnodes; tauto|apply Hvf5; tauto].
Qed.
End Add.
