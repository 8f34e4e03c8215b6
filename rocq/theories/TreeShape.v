(** The radix tree branches on the number of values of a node only to see whether
    it is 0, and never on the values.  So its nodes follow those of a tree of
    marks, with at most one value each, whatever happens to the values. *)
From Verif Require Import TreeMain TreeFinal TreeSim.
From Verif Require Export TreeShapeSpec.
From Coq Require Import Lia ZifyBool ZifyNat ZifyN.
Local Open Scope N_scope.

(** The values of that tree; its indexes are bounded by what 2^(w+1) prefixes need. *)
Inductive mark : Set := Mark.
Global Instance kbound_mark : kbound mark := Kbound mark (fun w => w + 4).
Lemma wide_mark c : c ∈ id_packages -> wide mark c /\ id_w c ∈ [16; 32; 64].
Proof.
  unfold id_packages. intros H.
  assert (E : forall a b : mark, a = b) by (by intros [] []).
  repeat (apply elem_of_cons in H as [->|H]; [split; [split; [right|..]; try done|cbn; set_solver]|]).
  by apply elem_of_nil in H.
Qed.

Section Shape.
Context {T : Type} (zero : T) (c : idcfg).
Notation w := (id_w c).

Definition near (a b : node) : Prop :=
  n_left a = n_left b /\ n_right a = n_right b /\ n_id a = n_id b /\ n_len a = n_len b /\
  (n_cnt a = 0 <-> n_cnt b = 0) /\ n_cnt b <= 1.
Record Shape (s : tree T) (u : tree mark) : Prop := MkShape {
  sh_fn : t_leftfn u = t_leftfn s;
  sh_len : t_length u = t_length s;
  sh_nodes : forall i, option_Forall2 near (t_nodes s !! i) (t_nodes u !! i);
  sh_n : t_n u = t_n s;
  sh_cap : t_cap u = t_cap s;
  sh_avail : t_avail u = t_avail s;
  sh_gen : t_gen u = t_gen s }.
Definition Shape2 {B} (a : tree T * B) (b : tree mark * B) : Prop := Shape (fst a) (fst b) /\ snd a = snd b.

Lemma get_node_sh s u i : Shape s u ->
  rsim (fun a b => near a b /\ t_nodes s !! i = Some a /\ t_nodes u !! i = Some b) (get_node s i) (get_node u i).
Proof. intros H. unfold get_node. pose proof (sh_nodes _ _ H i) as Hi. by inversion Hi. Qed.

Lemma with_avail_sh s u av : Shape s u -> Shape (with_avail s av) (with_avail u av).
Proof. intros []. by constructor. Qed.
Lemma with_vals_sh s u vs vs' : Shape s u -> Shape (with_vals s vs) (with_vals u vs').
Proof. intros []. by constructor. Qed.
Lemma insert_sh s u i a b : Shape s u -> near a b ->
  Shape (with_nodes s (<[i := a]> (t_nodes s))) (with_nodes u (<[i := b]> (t_nodes u))).
Proof.
  intros [] Hab. constructor; try done. intros j. cbn [with_nodes t_nodes].
  destruct (decide (j = i)) as [->|Hj]; [rewrite !lookup_insert; by constructor|by rewrite !lookup_insert_ne].
Qed.

Lemma upd_node_sh s u i f f' : Shape s u -> (forall a b, near a b -> near (f a) (f' b)) ->
  rsim Shape (upd_node s i f) (upd_node u i f').
Proof.
  intros H Hf. unfold upd_node. eapply rsim_bind; [by apply get_node_sh|]. intros a b (Ha & _).
  cbn. apply insert_sh; [done|by apply Hf].
Qed.

Lemma near_left l a b : near a b -> near (set_left l a) (set_left l b).
Proof. unfold near. cbn. tauto. Qed.
Lemma near_right l a b : near a b -> near (set_right l a) (set_right l b).
Proof. unfold near. cbn. tauto. Qed.
Lemma near_id x l a b : near a b -> near (set_id x l a) (set_id x l b).
Proof. unfold near. cbn. tauto. Qed.
Lemma near_shift n a b : near a b -> near (shift_length n a) (shift_length n b).
Proof. intros H. pose proof H as (_ & _ & E1 & E2 & _). unfold shift_length. rewrite E1, E2. by apply near_id. Qed.
Lemma near_cnt k k' a b : near a b -> (k = 0 <-> k' = 0) -> k' <= 1 -> near (set_cnt k a) (set_cnt k' b).
Proof. unfold near. cbn. tauto. Qed.
Hint Resolve near_left near_right near_id near_shift : core.

Lemma new_node_sh s u x n : Shape s u -> rsim Shape2 (new_node s x n) (new_node u x n).
Proof.
  intros H. unfold new_node. rewrite (sh_avail _ _ H). destruct (t_avail s) as [|j av].
  - cbn. split; [|by rewrite (sh_n _ _ H)]. destruct H. cbn [fst].
    constructor; cbn; rewrite ?sh_n0, ?sh_cap0, ?sh_gen0; try done.
    intros i. destruct (decide (i = t_n s)) as [->|Hi].
    + rewrite !lookup_insert. constructor. by unfold near; cbn.
    + by rewrite !lookup_insert_ne.
  - eapply rsim_bind.
    { apply upd_node_sh; [by apply with_avail_sh|]. intros _ _ _. by unfold near; cbn. }
    intros a b Hab. cbn. by split.
Qed.

Notation Set_mf := (Some (fun _ _ : mark => true)).
Notation Set_uf := (Some (fun _ : mark => Mark)).

(** addVal in the two trees. *)
Lemma add_val_sh s u v i mf uf : Shape s u ->
  rsim (fun a b => Shape (fst a) (fst b) /\ (snd b = true -> snd a = true))
    (add_val zero s v i mf uf) (add_val Mark u Mark i Set_mf Set_uf).
Proof.
  intros H. unfold add_val. eapply rsim_bind; [by apply get_node_sh|]. intros nd nb (Hn & Hs & Hu).
  destruct Hn as (L1 & L2 & L3 & L4 & Hc & H1).
  set (found := match mf with None => None | Some m => find_match zero s m v i 0 (N.to_nat (n_cnt nd)) end).
  assert (Hf : n_cnt nd = 0 -> found = None).
  { intros E. unfold found. rewrite E. by destruct mf. }
  destruct (N.to_nat (n_cnt nb)) as [|k] eqn:Hk; cbn [find_match].
  - rewrite Hf by (apply Hc; lia). cbv zeta. assert (Hb : n_cnt nb = 0) by lia.
    eapply rsim_bind.
    { apply (upd_node_sh _ _ i (set_cnt (n_cnt nd + 1)) (set_cnt (n_cnt nb + 1))).
      - by apply with_vals_sh.
      - intros a b Hab. apply near_cnt; [done|lia|lia]. }
    intros a b Hab. cbn. by split.
  - assert (Hb : n_cnt nb = 1) by lia. assert (Ha : n_cnt nd <> 0) by lia.
    destruct found as [k'|].
    + cbn. split; [|done]. destruct uf; [|destruct H; by constructor]. by apply with_vals_sh.
    + cbv zeta. unfold upd_node. rewrite (get_node_eq _ i nd) by done. cbn. split; [|done].
      destruct H. constructor; try done. intros j. cbn.
      destruct (decide (j = i)) as [->|Hj]; [|rewrite lookup_insert_ne by done; apply sh_nodes0].
      rewrite lookup_insert, Hu. constructor. unfold near. cbn. repeat split; try done; lia.
Qed.

Notation AddRes := (fun a b => Shape (fst a) (fst b) /\ (fst (snd b) = true -> fst (snd a) = true) /\
                               (snd (snd a) = 0 <-> snd (snd b) = 0)).

Lemma add_leaf_sh s u p d x v mf uf : Shape s u ->
  rsim AddRes (add_leaf zero s p d x v mf uf) (add_leaf Mark u p d x Mark Set_mf Set_uf).
Proof.
  intros H. unfold add_leaf. eapply rsim_bind; [by apply new_node_sh|]. intros a a' [Ha E]. rewrite <- E.
  eapply rsim_bind; [by apply add_val_sh|]. intros b b' [Hb Eb].
  eapply rsim_bind; [apply upd_node_sh; [done|destruct d; auto]|]. intros s1 u1 H1.
  eapply rsim_bind; [by apply get_node_sh|]. intros nd nd' (Hn & _). cbn. split; [done|]. split; [done|]. apply Hn.
Qed.

Lemma left_bit_sh s u x : Shape s u -> rsim eq (left_bit s x) (left_bit u x).
Proof. intros H. unfold left_bit. rewrite (sh_fn _ _ H). by destruct (t_leftfn s). Qed.

Lemma replace_child_sh s u p i j : Shape s u ->
  rsim Shape (replace_child s p i j) (replace_child u p i j).
Proof.
  intros H. unfold replace_child. eapply rsim_bind; [by apply get_node_sh|]. intros nd nd' (Hn & _).
  destruct Hn as (-> & -> & _).
  apply rsim_if; [intros _; apply upd_node_sh; auto|intros _].
  apply rsim_if; [intros _; apply upd_node_sh; auto|done].
Qed.

Lemma match_count_sh a b x : near a b -> match_count c a x = match_count c b x.
Proof. intros (_ & _ & E1 & E2 & _). unfold match_count. by rewrite E1, E2. Qed.

Lemma add_loop_sh v mf uf fuel : forall s u p i x, Shape s u ->
  rsim AddRes (add_loop zero c fuel s p i x v mf uf) (add_loop Mark c fuel u p i x Mark Set_mf Set_uf).
Proof.
  induction fuel as [|fuel IH]; intros s u p i x H; [done|]. cbn [add_loop].
  apply rsim_if; [done|intros _]. eapply rsim_bind; [by apply get_node_sh|]. intros nd nd' (Hn & _).
  rewrite (match_count_sh _ _ x Hn). pose proof Hn as (-> & -> & _ & -> & _).
  apply rsim_if; [done|intros _]. apply rsim_if; [done|intros _].
  apply rsim_if; intros _.
  { apply rsim_if; intros _.
    - eapply rsim_bind; [by apply add_val_sh|]. intros a a' [Ha E].
      eapply rsim_bind; [by apply get_node_sh|]. intros n1 n2 (Hn1 & _). cbn. split; [done|]. split; [done|]. apply Hn1.
    - eapply rsim_bind; [by apply new_node_sh|]. intros a a' [Ha E]. rewrite <- E.
      eapply rsim_bind; [by apply add_val_sh|]. intros b b' [Hb Eb].
      eapply rsim_bind; [apply upd_node_sh; auto|]. intros s1 u1 H1.
      eapply rsim_bind; [by apply get_node_sh|]. intros n1 n2 (Hn1 & _).
      pose proof Hn1 as (_ & _ & -> & _).
      eapply rsim_bind; [by apply left_bit_sh|]. intros lb lb' <-.
      eapply rsim_bind; [apply upd_node_sh; [done|destruct lb; auto]|]. intros s2 u2 H2.
      eapply rsim_bind; [by apply replace_child_sh|]. intros s3 u3 H3.
      eapply rsim_bind; [by apply get_node_sh|]. intros n3 n4 (Hn3 & _). cbn. split; [done|]. split; [done|]. apply Hn3. }
  apply rsim_if; intros _.
  { apply rsim_if; intros _; apply rsim_if; intros _; try (by apply add_leaf_sh); by apply IH. }
  eapply rsim_bind; [by apply new_node_sh|]. intros a a' [Ha E]. rewrite <- E.
  eapply rsim_bind; [by apply new_node_sh|]. intros a1 a1' [Ha1 E1]. rewrite <- E1.
  eapply rsim_bind; [by apply add_val_sh|]. intros b b' [Hb Eb].
  eapply rsim_bind; [apply upd_node_sh; auto|]. intros s1 u1 H1.
  eapply rsim_bind; [by apply get_node_sh|]. intros n1 n2 (Hn1 & _).
  pose proof Hn1 as (_ & _ & -> & _).
  eapply rsim_bind; [by apply left_bit_sh|]. intros lb lb' <-.
  eapply rsim_bind; [apply upd_node_sh; [done|destruct lb; auto]|]. intros s2 u2 H2.
  eapply rsim_bind; [by apply replace_child_sh|]. intros s3 u3 H3.
  eapply rsim_bind; [by apply get_node_sh|]. intros n3 n4 (Hn3 & _). cbn. split; [done|]. split; [done|]. apply Hn3.
Qed.

Lemma reserve_sh s u : Shape s u -> Shape (reserve s) (reserve u).
Proof.
  intros H. unfold reserve. rewrite (sh_avail _ _ H), (sh_cap _ _ H), (sh_n _ _ H).
  destruct (_ <? _); [|done]. destruct H. by constructor.
Qed.

Lemma add_sh s u x v mf uf : Shape s u ->
  rsim AddRes (tree_add zero c s x v mf uf) (tree_Set Mark c u x Mark).
Proof.
  intros H. apply reserve_sh in H. unfold tree_Set, tree_add. cbv zeta.
  eapply rsim_bind; [by apply get_node_sh|]. intros nd nd' (Hn & _). pose proof Hn as (-> & -> & _).
  apply rsim_if; intros _.
  { eapply rsim_bind; [by apply add_val_sh|]. intros a a' [Ha E].
    eapply rsim_bind; [by apply get_node_sh|]. intros n1 n2 (Hn1 & _). cbn. split; [done|]. split; [done|]. apply Hn1. }
  apply rsim_if; intros _; apply rsim_if; intros _;
    try (by apply add_leaf_sh); by apply add_loop_sh.
Qed.

(* --------------------------------------------------------------- Delete *)
Lemma del_find_sh fuel : forall s u p i x, Shape s u ->
  rsim (fun a b => a = b /\ forall t p, a = Some (t, p) -> t <> 0) (del_find c fuel s p i x) (del_find c fuel u p i x).
Proof.
  induction fuel as [|fuel IH]; intros s u p i x H; [done|]. cbn [del_find].
  apply rsim_if; [done|intros Hi]. apply N.eqb_neq in Hi. eapply rsim_bind; [by apply get_node_sh|]. intros nd nd' (Hn & _).
  rewrite (match_count_sh _ _ x Hn). pose proof Hn as (-> & -> & _ & -> & _).
  apply rsim_if; [done|intros _].
  apply rsim_if; [intros _; cbn; split; [done|]; by intros t q [= <- <-]|intros _]. by apply IH.
Qed.

Lemma merge_sh n a b a' b' : near a b -> near a' b' -> merge_from_nodes n a a' = merge_from_nodes n b b'.
Proof. intros (_ & _ & E1 & E2 & _) (_ & _ & E3 & E4 & _). unfold merge_from_nodes. by rewrite E1, E2, E3, E4. Qed.

Lemma lift_child_sh s u t p ch : Shape s u -> rsim Shape (lift_child s t p ch) (lift_child u t p ch).
Proof.
  intros H. unfold lift_child. eapply rsim_bind; [by apply get_node_sh|]. intros pn pn' (Hn & _).
  pose proof Hn as (-> & _).
  eapply rsim_bind; [apply upd_node_sh; [done|destruct (_ =? _); auto]|]. intros s1 u1 H1.
  eapply rsim_bind; [by apply get_node_sh|]. intros tn tn' (Htn & _).
  eapply rsim_bind; [by apply get_node_sh|]. intros cn cn' (Hcn & _).
  rewrite (sh_len _ _ H1), (merge_sh _ _ _ _ _ Htn Hcn).
  eapply (rsim_bind eq); [by destruct (merge_from_nodes _ _ _)|]. intros m m' <-.
  apply upd_node_sh; auto.
Qed.

Lemma move_loop_ctl {A} (z : A) a b n : forall k (s : tree A), exists vs, move_loop z s a b k n = with_vals s vs.
Proof.
  induction n as [|n IH]; intros k s; cbn [move_loop]; [exists (t_vals s); by destruct s|].
  destruct (IH (k + 1) (with_vals s (delete (slot s a k) (<[slot s b k := val_at z s (slot s a k)]> (t_vals s))))) as [vs ->].
  by exists vs.
Qed.

Lemma move_tags_sh s u a b nb : Shape s u -> t_nodes s !! b = Some nb -> n_cnt nb = 0 ->
  rsim Shape (move_tags zero s a b) (move_tags Mark u a b).
Proof.
  intros H Hb Hnb. unfold move_tags. eapply rsim_bind; [by apply get_node_sh|]. intros na na' (Hna & Ha & Ha').
  cbv zeta. destruct (move_loop_ctl zero a b (N.to_nat (n_cnt na)) 0 s) as [vs ->].
  destruct (move_loop_ctl Mark a b (N.to_nat (n_cnt na')) 0 u) as [vs' ->].
  assert (H1 : Shape (with_vals s vs) (with_vals u vs')) by by apply with_vals_sh.
  eapply (rsim_bind Shape).
  { unfold upd_node. rewrite (get_node_eq _ b nb) by done. pose proof (sh_nodes _ _ H b) as Hob. rewrite Hb in Hob.
    inversion Hob as [? nb' Hnn E1 E2|]; subst. rewrite (get_node_eq _ b nb') by done. cbn.
    apply (insert_sh _ _ b _ _ H1). destruct Hna as (_ & _ & _ & _ & Hc & Hc1).
    pose proof Hnn as (_ & _ & _ & _ & Hd & _). apply near_cnt; [done|lia|lia]. }
  intros s2 u2 H2. apply upd_node_sh; [done|]. intros n1 n2 H12. apply near_cnt; [done|done|lia].
Qed.

Lemma merge_sibling_sh s u p sb pn : Shape s u -> t_nodes s !! p = Some pn -> n_cnt pn = 0 ->
  rsim Shape (merge_sibling zero s p sb) (merge_sibling Mark u p sb).
Proof.
  intros H Hp Hpn. unfold merge_sibling. rewrite (get_node_eq s p pn Hp). pose proof (sh_nodes _ _ H p) as Hop. rewrite Hp in Hop.
  inversion Hop as [? pn' Hnn E1 E2|]; subst. rewrite (get_node_eq u p pn') by done. cbn [rbind].
  eapply rsim_bind; [by apply get_node_sh|]. intros sn sn' (Hsn & _).
  rewrite (sh_len _ _ H), (merge_sh _ _ _ _ _ Hnn Hsn).
  eapply (rsim_bind eq); [by destruct (merge_from_nodes _ _ _)|]. intros m m' <-.
  rewrite (upd_node_eq s p _ pn) by done. rewrite (upd_node_eq u p _ pn') by done. cbn [rbind].
  set (s1 := with_nodes s _). set (u1 := with_nodes u _).
  assert (H1 : Shape s1 u1) by (apply insert_sh; auto).
  eapply rsim_bind.
  { apply (move_tags_sh _ _ _ _ (set_id (fst m) (snd m) pn)); [done| |done]. cbn. by rewrite lookup_insert. }
  intros s2 u2 H2.
  eapply rsim_bind; [by apply get_node_sh|]. intros sn1 sn2 (Hsn1 & _). pose proof Hsn1 as (-> & -> & _).
  eapply rsim_bind; [apply (upd_node_sh s2 u2); [done|intros; by auto]|]. intros s3 u3 H3. cbn.
  rewrite (sh_avail _ _ H3). by apply with_avail_sh.
Qed.

Lemma delete_node_sh s u t p : Shape s u -> rsim Shape (delete_node zero s t p) (delete_node Mark u t p).
Proof.
  intros H. unfold delete_node. apply rsim_if; [done|intros _].
  eapply rsim_bind; [by apply get_node_sh|]. intros tn tn' (Htn & _). pose proof Htn as (-> & -> & _).
  apply rsim_if; [done|intros _]. eapply (rsim_bind Shape).
  { apply rsim_if; [intros _; by apply lift_child_sh|intros _].
    apply rsim_if; [intros _; by apply lift_child_sh|intros _].
    eapply rsim_bind; [by apply get_node_sh|]. intros pn pn' (Hpn & Hp & Hp').
    assert (Hm : forall (f : node -> node) sb, (forall a b, near a b -> near (f a) (f b)) -> (forall a, n_cnt (f a) = n_cnt a) ->
      rsim Shape
        (do s1 <- upd_node s p f; if (1 <? p) && (n_cnt pn =? 0) && negb (sb =? 0) then merge_sibling zero s1 p sb else Ok s1)
        (do s1 <- upd_node u p f; if (1 <? p) && (n_cnt pn' =? 0) && negb (sb =? 0) then merge_sibling Mark s1 p sb else Ok s1)).
    { intros f sb Hf Hfc. rewrite (upd_node_eq s p _ pn) by done. rewrite (upd_node_eq u p _ pn') by done. cbn [rbind].
      assert (H1 := insert_sh s u p _ _ H (Hf _ _ Hpn)).
      replace (n_cnt pn' =? 0) with (n_cnt pn =? 0).
      2:{ destruct Hpn as (_ & _ & _ & _ & Hc & _). clear -Hc. lia. }
      apply rsim_if; [|done]. intros Hb. apply andb_true_iff in Hb as [Hb _]. apply andb_true_iff in Hb as [_ Hb].
      apply N.eqb_eq in Hb. apply (merge_sibling_sh _ _ _ _ (f pn)); [done| |by rewrite Hfc].
      cbn [with_nodes t_nodes]. by rewrite lookup_insert. }
    pose proof Hpn as (-> & -> & _).
    apply rsim_if; intros _; apply Hm; auto. }
  intros s1 u1 H1. eapply rsim_bind; [apply (upd_node_sh s1 u1); [done|intros; by auto]|]. intros s2 u2 H2. cbn.
  rewrite (sh_avail _ _ H2). by apply with_avail_sh.
Qed.

(** What deleteVal does to everything but the values: a new count. *)
Definition counted (s : tree T) (i : N) (nd : node) (k : N) (s' : tree T) : Prop :=
  exists vs, s' = with_nodes (with_vals s vs) (<[i := set_cnt k nd]> (t_nodes s)).

Lemma counted_again s i nd k s1 k' s2 : counted s i nd k s1 -> counted s1 i (set_cnt k nd) k' s2 -> counted s i nd k' s2.
Proof.
  intros [vs ->] [vs' ->]. exists vs'. unfold with_nodes, with_vals. cbn. f_equal. by rewrite insert_insert.
Qed.

Lemma put_back_sh i (m : T -> T -> bool) v buf : forall s nd del keep, t_nodes s !! i = Some nd ->
  exists s' k del' keep', put_back zero s i m v buf del keep = Ok (s', (del', keep')) /\
    counted s i nd k s' /\ keep <= keep' /\ del <= del' /\
    (keep = keep' -> k = n_cnt nd /\ del' = del + N.of_nat (length buf)) /\ (keep < keep' -> k <> 0) /\
    ((forall a b, m a b = true) -> keep' = keep).
Proof.
  induction buf as [|y buf IH]; intros s nd del keep Hnd; cbn [put_back].
  { exists s, (n_cnt nd), del, keep. split; [done|]. split.
    - exists (t_vals s). replace (set_cnt (n_cnt nd) nd) with nd by (by destruct nd). rewrite insert_id by done. by destruct s.
    - cbn [length]. repeat split; lia. }
  destruct (m y v) eqn:Hm.
  { destruct (IH s nd (del + 1) keep Hnd) as (s' & k & d' & k' & H1 & H2 & H3 & H4 & H5 & H6 & H7).
    exists s', k, d', k'. split; [done|]. split; [done|]. split; [done|]. split; [lia|]. split; [|done].
    intros E. destruct (H5 E) as [E1 E2]. cbn [length]. split; [done|lia]. }
  unfold add_val. rewrite (get_node_eq s i nd Hnd). cbn [rbind].
  destruct (find_match zero s m y i 0 (N.to_nat (n_cnt nd))) as [j|] eqn:Hf.
  - cbn [rbind fst]. destruct (IH s nd del (keep + 1) Hnd) as (s' & k & d' & k' & H1 & H2 & H3 & H4 & H5 & H6 & H7).
    assert (Hc : n_cnt nd <> 0) by (intros E; by rewrite E in Hf).
    exists s', k, d', k'. split; [done|]. split; [done|]. split; [lia|]. split; [done|]. split; [lia|]. split.
    + intros _. destruct (N.eq_dec (keep + 1) k') as [E|E]; [by rewrite (proj1 (H5 E))|apply H6; lia].
    + intros Hall. by rewrite Hall in Hm.
  - cbv zeta. set (s1 := with_vals s _). rewrite (upd_node_eq s1 i _ nd) by done. cbn [rbind fst].
    set (s2 := with_nodes s1 _).
    destruct (IH s2 (set_cnt (n_cnt nd + 1) nd) del (keep + 1)) as (s' & k & d' & k' & H1 & H2 & H3 & H4 & H5 & H6 & H7).
    { cbn. by rewrite lookup_insert. }
    exists s', k, d', k'. split; [done|]. split.
    { eapply counted_again; [|exact H2]. by eexists. }
    split; [lia|]. split; [done|]. split; [lia|]. split.
    + intros _. destruct (N.eq_dec (keep + 1) k') as [E|E]; [rewrite (proj1 (H5 E)); cbn; lia|apply H6; lia].
    + intros Hall. by rewrite Hall in Hm.
Qed.

Lemma delete_slots_ctl {A} i n : forall k (s : tree A), exists vs, delete_slots s i k n = with_vals s vs.
Proof.
  induction n as [|n IH]; intros k s; cbn [delete_slots]; [exists (t_vals s); by destruct s|].
  destruct (IH (k + 1) (with_vals s (delete (slot s i k) (t_vals s)))) as [vs ->]. by exists vs.
Qed.

Lemma delete_val_sh s i (m : T -> T -> bool) v nd : i <> 0 -> t_nodes s !! i = Some nd -> n_cnt nd <> 0 ->
  exists s' k del keep, delete_val zero s i v m = Ok (s', (del, keep)) /\ counted s i nd k s' /\
    (keep = 0 <-> k = 0) /\ (keep = 0 -> del <> 0) /\ ((forall a b, m a b = true) -> keep = 0).
Proof.
  intros Hi Hnd Hc. unfold delete_val, vals_for_node. rewrite (proj2 (N.eqb_neq _ _) Hi), (get_node_eq s i nd Hnd).
  cbn [rbind]. destruct (_ <$> seq 0 (N.to_nat (n_cnt nd))) as [|y buf] eqn:Hbuf.
  { apply (f_equal length) in Hbuf. rewrite fmap_length, seq_length in Hbuf. cbn in Hbuf. lia. }
  destruct (delete_slots_ctl i (N.to_nat (n_cnt nd)) 0 s) as [vs ->].
  set (s1 := with_vals s vs). rewrite (upd_node_eq s1 i _ nd) by done. cbn [rbind].
  set (s2 := with_nodes s1 _).
  destruct (put_back_sh i m v (y :: buf) s2 (set_cnt 0 nd) 0 0) as (s' & k & d & k' & H1 & H2 & H3 & H4 & H5 & H6 & H7).
  { cbn. by rewrite lookup_insert. }
  exists s', k, d, k'. split; [done|]. split; [eapply counted_again; [|exact H2]; by eexists|].
  split; [|split; [|done]].
  - split; [intros ->; by apply (H5 eq_refl)|]. intros ->. destruct (N.eq_dec k' 0); [done|]. exfalso. apply H6; [lia|done].
  - intros ->. destruct (H5 eq_refl) as [_ ->]. cbn [length]. lia.
Qed.

(** Delete in the two trees; the second one deletes either everything or nothing. *)
Lemma delete_sh s u x (m : T -> T -> bool) v : Shape s u ->
  exists b, rsim (fun (a : tree T * N) (d : tree mark * N) => Shape (fst a) (fst d) /\
      (snd d = 0 -> b = true -> snd a = 0) /\ (snd d <> 0 -> snd a <> 0) /\ ((forall a b, m a b = true) -> b = true))
    (tree_Delete zero c s x m v) (tree_Delete Mark c u x (fun _ _ => b) Mark) /\
    (b = false -> forall ud n, tree_Delete Mark c u x (fun _ _ => true) Mark = Ok (ud, n) -> n <> 0).
Proof.
  intros H. unfold tree_Delete.
  pose proof (get_node_sh s u 1 H) as Hroot.
  destruct (get_node s 1) as [root| |], (get_node u 1) as [root'| |]; cbn [rsim] in Hroot; try done; [|by exists true..].
  destruct Hroot as (Hroot & _). cbn [rbind]. pose proof Hroot as (-> & -> & _).
  match goal with |- context [if i_len x =? 0 then ?a else del_find c ?n s ?p ?l x] =>
    set (fd := if i_len x =? 0 then a else del_find c n s p l x);
    set (fd' := if i_len x =? 0 then a else del_find c n u p l x) end.
  assert (Hfd : rsim (fun a b => a = b /\ forall t p, a = Some (t, p) -> t <> 0) fd fd').
  { unfold fd, fd'. apply rsim_if; [intros _; cbn; split; [done|]; by intros t p [= <- <-]|intros _]. by apply del_find_sh. }
  destruct fd as [tg| |], fd' as [tg'| |]; cbn [rsim] in Hfd; try done; [|by exists true..].
  destruct Hfd as [<- Hnz]. cbn [rbind]. destruct tg as [[t p]|]; [|by exists true]. specialize (Hnz t p eq_refl).
  pose proof (get_node_sh s u t H) as Ht.
  destruct (get_node s t) as [tn| |], (get_node u t) as [tn'| |]; cbn [rsim] in Ht; try done; [|by exists true..].
  destruct Ht as (Hn & Hs & Hu). cbn [rbind]. pose proof Hn as (_ & _ & _ & _ & Hc & Hc1).
  destruct (N.eqb_spec (n_cnt tn) 0) as [E0|E0].
  { exists true. rewrite (proj2 (N.eqb_eq _ _) (proj1 Hc E0)). by cbn. }
  assert (E1 : n_cnt tn' = 1) by lia. rewrite E1. change (1 =? 0) with false.
  destruct (delete_val_sh s t m v tn Hnz Hs E0) as (s1 & k & del & keep & -> & [vs ->] & Hk & Hd & Hall). cbn [rbind].
  unfold delete_val, vals_for_node. rewrite (proj2 (N.eqb_neq _ _) Hnz), (get_node_eq u t tn' Hu).
  cbn [rbind]. rewrite E1. change (N.to_nat 1) with 1%nat. cbn [seq fmap list_fmap delete_slots].
  set (u1 := with_vals u _). rewrite (upd_node_eq u1 t _ tn') by done. cbn [rbind put_back].
  set (u2 := with_nodes u1 _).
  destruct (N.ltb_spec 0 keep) as [Hkeep|Hkeep].
  - exists false. unfold add_val. rewrite (get_node_eq u2 t (set_cnt 0 tn')) by (cbn; by rewrite lookup_insert).
    cbn [rbind set_cnt n_cnt]. change (N.to_nat 0) with 0%nat. cbn [find_match].
    set (u3 := with_vals u2 _). rewrite (upd_node_eq u3 t _ (set_cnt 0 tn')) by (cbn; by rewrite lookup_insert).
    cbn [rbind fst N.ltb N.compare N.add]. split.
    2:{ intros _ ud n E. destruct (delete_node Mark u2 t p) as [s2| |]; [|done|done]. cbn [rbind] in E. by injection E as _ <-. }
    cbn. split; [|split; [done|split; [done|]]].
    + unfold u3, u2, u1. cbn. rewrite insert_insert. 
      apply (insert_sh (with_vals s vs) (with_vals u _) t (set_cnt k tn) (set_cnt 1 tn')); [by apply with_vals_sh|].
      apply near_cnt; [done|lia|lia].
    + intros Hm. specialize (Hall Hm). lia.
  - exists true. assert (keep = 0) as -> by lia. cbn [rbind N.ltb N.compare].
    assert (k = 0) as -> by by apply Hk.
    assert (H1 : Shape (with_nodes (with_vals s vs) (<[t:=set_cnt 0 tn]> (t_nodes s))) u2).
    { apply (insert_sh (with_vals s vs) u1); [by apply with_vals_sh|]. apply near_cnt; [done|done|lia]. }
    split; [|done].
    eapply rsim_bind; [by apply delete_node_sh|]. intros s3 u3 H3. cbn. split; [done|]. split; [done|]. split; [|done].
    intros _. by apply Hd.
Qed.

(* ------------------------------------------------------------ iteration *)
Lemma next_sh s u fuel : Shape s u -> forall it, next_loop fuel s it = next_loop fuel u it.
Proof.
  intros H. induction fuel as [|fuel IH]; intros it; [done|]. cbn [next_loop].
  assert (E : next_body s it = next_body u it).
  { unfold next_body. pose proof (get_node_sh s u (it_idx it) H) as Hn.
    destruct (get_node s (it_idx it)) as [a| |], (get_node u (it_idx it)) as [b| |]; cbn [rsim] in Hn; try done; try (by subst).
    destruct Hn as [Hn _]. cbn [rbind]. pose proof Hn as (-> & -> & _ & _ & Hc & _).
    replace (n_cnt b =? 0) with (n_cnt a =? 0) by (clear -Hc; lia).
    destruct (_ && _); [done|]. cbv zeta.
    match goal with |- context [match it_hist ?x with [] => _ | _ :: _ => _ end] => generalize x; intros it3 end.
    destruct (it_next it3); [done..|]. destruct (it_hist it3) as [|prev h]; [done|].
    pose proof (get_node_sh s u prev H) as Hj.
    destruct (get_node s prev) as [pa| |], (get_node u prev) as [pb| |]; cbn [rsim] in Hj; try done; try (by subst).
    destruct Hj as [Hj _]. cbn [rbind]. by destruct Hj as (-> & -> & _). }
  rewrite E. destruct (next_body u it) as [[it' [b|]]| |]; cbn [rbind fst snd]; try done.
Qed.

Lemma iter_loop_sh s u fuel : Shape s u -> forall it,
  rsim (fun a b => length (fst a) = length (fst b) /\ (Forall (fun l => l <> []) (fst b) -> Forall (fun l => l <> []) (fst a)) /\ snd a = snd b)
    (iter_loop zero fuel s it) (iter_loop Mark fuel u it).
Proof.
  intros H. induction fuel as [|fuel IH]; intros it; [done|]. cbn [iter_loop].
  eapply (rsim_bind eq).
  { unfold iter_next. rewrite (sh_n _ _ H), (next_sh s u _ H). by destruct (next_loop _ u it). }
  intros x ? <-. apply rsim_if; [intros _|by intros _; cbn].
  eapply (rsim_bind (fun a b => a = [] <-> b = [])).
  { unfold iter_vals, vals_for_node. apply rsim_if; [done|intros _].
    eapply rsim_bind; [by apply get_node_sh|]. intros nd nd' (Hn & _). destruct Hn as (_ & _ & _ & _ & Hc & _).
    cbn. split; intros E; apply (f_equal length) in E; rewrite fmap_length, seq_length in E; cbn in E.
    - by replace (N.to_nat (n_cnt nd')) with O by lia.
    - by replace (N.to_nat (n_cnt nd)) with O by lia. }
  intros a b Hab.
  eapply rsim_bind; [apply IH|]. intros r1 r2 (H1 & H2 & H3). cbn. rewrite H1. split; [done|]. split; [|done].
  intros Hf. apply Forall_cons in Hf as [Hb Hr]. constructor; [|by apply H2]. intros E. by apply Hb, Hab.
Qed.
End Shape.

(* ---------------------------------------------------------------- runs *)
(** The map of the second tree is a set. *)
Definition marks (m : pmap mark) (P : pset) : Prop :=
  forall q, m !! q = if decide (q ∈ P) then Some [Mark] else None.
Lemma marks_size m P : marks m P -> size m = size P.
Proof.
  intros H. unfold pmap in *. rewrite <- size_dom.
  replace (dom m : gset (list bool)) with P; [done|]. apply leibniz_equiv. intros q. rewrite elem_of_dom, H.
  destruct (decide (q ∈ P)); [split; [by eauto|done]|]. split; [done|]. by intros [? ?].
Qed.
Lemma marks_held m P q : marks m P -> held m q = if decide (q ∈ P) then [Mark] else [].
Proof. intros H. unfold held. rewrite H. by destruct (decide _). Qed.
Lemma marks_put m P q : marks m P -> marks (put m q [Mark]) ({[ q ]} ∪ P).
Proof.
  intros H q'. unfold put, pmap in *. destruct (decide (q' = q)) as [->|Hq].
  - rewrite lookup_insert, decide_True by set_solver. done.
  - rewrite lookup_insert_ne by done. rewrite H. destruct (decide (q' ∈ P)), (decide (q' ∈ {[q]} ∪ P)); set_solver.
Qed.
Lemma marks_del m P q : marks m P -> marks (put m q []) (P ∖ {[ q ]}).
Proof.
  intros H q'. unfold put, pmap in *. destruct (decide (q' = q)) as [->|Hq].
  - rewrite lookup_delete, decide_False by set_solver. done.
  - rewrite lookup_delete_ne by done. rewrite H. destruct (decide (q' ∈ P)), (decide (q' ∈ P ∖ {[q]})); set_solver.
Qed.

Section Runs.
Context {T : Type} (zero : T) (c : idcfg) (Hc : c ∈ id_packages).
Notation w := (id_w c).
Let Hwide : wide mark c := proj1 (wide_mark c Hc).
Let Hw : w ∈ [16; 32; 64] := proj2 (wide_mark c Hc).
Local Existing Instance Hwide.

Definition short (P : pset) : Prop := forall q, q ∈ P -> (length q <= N.to_nat w)%nat.
Lemma marks_room m P : marks m P -> short P -> roomK w m.
Proof.
  intros H Hs. split.
  - assert (Hk : N.of_nat (size m) + 1 <= 2 ^ N.of_nat (S (N.to_nat w))).
    { apply keys_size. intros q l Hl. apply Hs. rewrite H in Hl. by destruct (decide _). }
    rewrite Nat2N.inj_succ, N2Nat.id in Hk. cbn [kbound_of kbound_n kbound_mark].
    replace (w + 4 - 1) with (N.succ (N.succ (N.succ w))) by lia.
    rewrite (N.pow_succ_r' 2 (N.succ (N.succ w))), (N.pow_succ_r' 2 (N.succ w)). lia.
  - intros q l Hl. rewrite H in Hl. destruct (decide _); [|done]. injection Hl as <-. cbn.
    pose proof (N.pow_nonzero 2 w). lia.
Qed.
Lemma short_sub P Q : P ⊆ Q -> short Q -> short P.
Proof. intros H HQ q Hq. by apply HQ, H. Qed.

Record SInv (s : tree T) (P : pset) : Prop := MkSInv {
  si_u : short P /\ exists u m t, Shape s u /\ Inv Mark c u m t /\ marks m P }.

Lemma SInv_zero : SInv (tree_zero c) ∅.
Proof.
  constructor. split; [by intros q Hq|]. exists (tree_zero c), ∅, (GNode 1 [] [] GNil GNil). split; [|split; [by apply (Inv_zero Mark)|]].
  - constructor; try done. intros i. unfold tree_zero, new_tree. cbn [t_nodes].
    destruct (decide (i = 1)) as [->|H1]; [rewrite !lookup_insert; by constructor|rewrite !(lookup_insert_ne _ 1) by done].
    destruct (decide (i = 0)) as [->|H0]; [rewrite !lookup_insert; by constructor|rewrite !(lookup_insert_ne _ 0) by done].
    rewrite !lookup_empty. constructor.
  - intros q. rewrite decide_False by (apply not_elem_of_empty). done.
Qed.

Lemma shape_step s P o : SInv s P -> top_ok c o ->
  exists s' r P', t_step zero c s o = Ok (s', r) /\ SInv s' P' /\ prefixes_step w P o r P' /\
    (t_n s < t_n s' -> t_avail s' = []).
Proof.
  intros [(HrP & u & m & t & Hs & Hi & Hm)] Hok.
  set (q := prefix w (top_id o)) in *.
  assert (Hr : short ({[ q ]} ∪ P)).
  { intros q' Hq. apply elem_of_union in Hq as [Hq|Hq]; [|by apply HrP].
    apply elem_of_singleton in Hq as ->. unfold q. rewrite TreeFinal.prefix_length. destruct Hok as [_ Hok]. lia. }
  assert (Hadd : forall x v mf uf, idok c x -> prefix w x = q ->
    exists s' b n, tree_add zero c s x v mf uf = Ok (s', (b, n)) /\ SInv s' ({[ q ]} ∪ P) /\ n <> 0 /\ (q ∉ P -> b = true) /\
      (t_n s < t_n s' -> t_avail s' = [])).
  { intros x v mf uf Hx Hq.
    assert (Hput : put m q (set_list Mark (held m q)) = put m q [Mark]).
    { rewrite (marks_held m P) by done. by destruct (decide _). }
    destruct (step_spec Mark c Hw u m t (TSet x Mark) Hi) as (u' & t' & He & Hi' & _ & Hgrow).
    { by apply (marks_room m P). }
    { cbn [spec_step fst]. rewrite Hq, Hput. by apply (marks_room _ _ (marks_put m P _ Hm)). }
    { done. }
    cbn [spec_step t_step fst snd] in *. rewrite Hq in *. rewrite Hput in Hi'.
    pose proof (add_sh zero c s u x v mf uf Hs) as Hsim.
    destruct (tree_add zero c s x v mf uf) as [[s1 [b n]]| |], (tree_Set Mark c u x Mark) as [[u1 [b' n']]| |];
      cbn [rsim rbind fst snd] in *; try done.
    destruct Hsim as (Hsim & Hb & Hn). injection He as -> -> ->. exists s1, b, n. split; [done|]. split; [|split; [|split]].
    - constructor. split; [done|]. exists u', (put m q [Mark]), t'. split; [done|]. split; [done|]. by apply marks_put.
    - rewrite (marks_held m P) in Hn by done. destruct (decide (q ∈ P)); cbn in Hn; clear -Hn; lia.
    - intros HqP. apply Hb. rewrite (marks_held m P), decide_False by done. done.
    - rewrite <- (sh_n _ _ Hs), <- (sh_n _ _ Hsim), <- (sh_avail _ _ Hsim). done. }
  destruct o as [x v|x v mf|x mf v]; cbn [t_step top_id] in *.
  - destruct (Hadd x v (Some (fun _ _ => true)) (Some (fun _ => v)) Hok eq_refl) as (s' & b & n & He & H1 & H2 & H3 & H4).
    unfold tree_Set. rewrite He. cbn [rbind fst snd]. exists s', (RAdded b n), ({[ q ]} ∪ P). done.
  - destruct (Hadd x v mf None Hok eq_refl) as (s' & b & n & He & H1 & H2 & H3 & H4).
    unfold tree_Add. rewrite He. cbn [rbind fst snd]. exists s', (RAdded b n), ({[ q ]} ∪ P). done.
  - destruct (delete_sh zero c s u x mf v Hs) as (b & Hsim & Hbf).
    set (del := bool_decide (q ∈ P) && b).
    assert (Hput : put m q (delete_list (fun _ _ => b) Mark (held m q)) = if del then put m q [] else m).
    { unfold del. rewrite (marks_held m P) by done.
      destruct (decide (q ∈ P)) as [Hq|Hq].
      - rewrite bool_decide_true by done. cbn [andb]. unfold delete_list. cbn [List.filter].
        destruct b; [done|]. cbn. unfold pmap in *. apply insert_id.
        pose proof (Hm q) as E. rewrite decide_True in E by done. exact E.
      - rewrite bool_decide_false by done. cbn [andb]. cbn. unfold pmap in *. apply delete_notin.
        pose proof (Hm q) as E. rewrite decide_False in E by done. exact E. }
    assert (Hcm : count_matching (fun _ _ => b) Mark (held m q) = if del then 1 else 0).
    { unfold del. rewrite (marks_held m P) by done.
      destruct (decide (q ∈ P)) as [Hq|Hq]; [rewrite bool_decide_true by done|rewrite bool_decide_false by done];
        cbn [andb]; unfold count_matching; cbn [List.filter]; [by destruct b|done]. }
    assert (Hm' : marks (if del then put m q [] else m) (if del then P ∖ {[ q ]} else P)).
    { destruct del; [by apply marks_del|done]. }
    destruct (step_spec Mark c Hw u m t (TDelete x (fun _ _ => b) Mark) Hi) as (u' & t' & He & Hi' & _ & Hgrow).
    { by apply (marks_room m P). }
    { cbn [spec_step fst]. fold q. rewrite Hput. apply (marks_room _ _ Hm').
      eapply short_sub; [|exact HrP]. destruct del; set_solver. }
    { done. }
    cbn [spec_step t_step fst snd] in *. fold q in He, Hi'. rewrite Hcm in He. rewrite Hput in Hi'.
    destruct (tree_Delete zero c s x mf v) as [[s1 n]| |], (tree_Delete Mark c u x _ Mark) as [[u1 n']| |];
      cbn [rsim rbind fst snd] in *; try done.
    destruct Hsim as (Hsim & N1 & N2 & N3). injection He as -> ->.
    exists s1, (RDeleted n), (if del then P ∖ {[ q ]} else P). split; [done|]. split; [|split].
    + constructor. split; [eapply short_sub; [|exact HrP]; destruct del; set_solver|].
      by exists u', (if del then put m q [] else m), t'.
    + cbn [prefixes_step top_id]. fold q. unfold del in *. 
      destruct (decide (q ∈ P)) as [HqP|HqP]; [rewrite bool_decide_true in * by done|rewrite bool_decide_false in * by done]; cbn [andb] in *.
      * split; [|split; [done|]].
        -- destruct b; [right|by left]. split; [done|]. split; [done|]. by apply N2.
        -- intros Hall. specialize (N3 Hall) as ->. split; [done|]. intros _. by apply N2.
      * split; [by left|]. assert (b = true) as ->.
        { destruct b; [done|]. exfalso.
          destruct (step_spec Mark c Hw u m t (TDelete x (fun _ _ => true) Mark) Hi) as (ud & td & Hed & _).
          { by apply (marks_room m P). }
          { cbn [spec_step fst]. fold q. rewrite (marks_held m P), decide_False by done. cbn [delete_list List.filter drop_duplicates fold_left].
            apply (marks_room _ _ (marks_del m P q Hm)). eapply short_sub; [|exact HrP]. set_solver. }
          { done. }
          cbn [spec_step t_step fst snd] in Hed. fold q in Hed. rewrite (marks_held m P), decide_False in Hed by done.
          destruct (tree_Delete Mark c u x (fun _ _ => true) Mark) as [[ud' n']| |] eqn:Ed; cbn [rbind fst snd] in Hed; [|done..].
          injection Hed as _ E. by apply (Hbf eq_refl ud' n'). }
        split; [intros _; by apply N1|]. intros _. split; [|done]. set_solver.
    + rewrite <- (sh_n _ _ Hs), <- (sh_n _ _ Hsim), <- (sh_avail _ _ Hsim). done.
Qed.

Lemma shape_run os : forall s P, SInv s P -> Forall (top_ok c) os ->
  exists s' rs P', t_run zero c s os = Ok (s', rs) /\ SInv s' P' /\ prefixes_run w P os rs P'.
Proof.
  induction os as [|o os IH]; intros s P Hi Hok.
  { exists s, [], P. split; [done|]. split; [done|]. constructor. }
  apply Forall_cons in Hok as [Ho Hos].
  destruct (shape_step s P o Hi Ho) as (s1 & r & P1 & He & Hi1 & Hp & _).
  destruct (IH s1 P1 Hi1 Hos) as (s2 & rs & P2 & He2 & Hi2 & Hp2).
  exists s2, (r :: rs), P2. cbn [t_run]. rewrite He. cbn [rbind fst snd]. rewrite He2. cbn [rbind fst snd].
  split; [done|]. split; [done|]. by econstructor.
Qed.

Lemma shape_iter s P : SInv s P ->
  exists vss it, iter_loop zero (S (N.to_nat (t_n s))) s iterate = Ok (vss, it) /\ iter_next s it = Ok (it, false) /\
    length vss = size P /\ Forall (fun l => l <> []) vss.
Proof.
  intros [(_ & u & m & t & Hs & Hi & Hm)].
  destruct (iter_inv Mark c u t (Iv_inv _ _ _ _ _ Hi)) as (I1 & _ & I3).
  pose proof (Inv_listing _ _ _ _ _ Hi) as Hl. pose proof (listing_size m _ Hl) as Hsz.
  rewrite (marks_size m P Hm) in Hsz. rewrite <- (pre_vlist t []) in I1.
  pose proof (iter_loop_sh zero s u (S (N.to_nat (t_n s))) Hs iterate) as H.
  rewrite (sh_n _ _ Hs) in I1. rewrite I1 in H.
  destruct (iter_loop zero _ s iterate) as [[vss it]| |]; cbn [rsim fst snd] in *; try done.
  destruct H as (H1 & H2 & ->). exists vss, (Iter 1 [] NUp). split; [done|]. split; [|split].
  - revert I3. unfold iter_next. by rewrite (next_sh s u _ Hs), <- (sh_n _ _ Hs).
  - by rewrite H1, fmap_length.
  - apply H2, Forall_fmap, Forall_forall. intros [q l] Hq. apply Hl in Hq. cbn. intros ->.
    by apply (Iv_ne _ _ _ _ _ Hi q).
Qed.

Lemma shape_nodes s P : SInv s P ->
  t_gen s = 0 /\ t_n s <= 2 + 2 * N.of_nat (size P) + N.of_nat (length (t_avail s)) /\
  (forall j nd, 1 < j -> j ∉ t_avail s -> t_nodes s !! j = Some nd -> n_cnt nd = 0 -> n_left nd <> 0 /\ n_right nd <> 0).
Proof.
  intros [(_ & u & m & t & Hs & Hi & Hm)]. split; [rewrite <- (sh_gen _ _ Hs); by eapply Iv_gen|]. split.
  - pose proof (Inv_fp Mark c u m t Hi) as Hfp. pose proof (iv_cnt _ _ _ _ (Iv_inv _ _ _ _ _ Hi)) as Hcn.
    rewrite <- (sh_n _ _ Hs), <- (sh_avail _ _ Hs), <- (marks_size m _ Hm). lia.
  - intros j nd Hj Hav Hnd H0. rewrite <- (sh_avail _ _ Hs) in Hav.
    pose proof (sh_nodes _ _ Hs j) as Hn. rewrite Hnd in Hn. inversion Hn as [? nd' Hnn E1 E2|]; subst.
    destruct Hnn as (-> & -> & _ & _ & Hcn & _).
    apply (inv_two Mark c u t j nd' (Iv_inv _ _ _ _ _ Hi)); [done|done|done|by apply Hcn].
Qed.

Lemma t_run_snoc (s : tree T) os o s' rs : t_run zero c s (os ++ [o]) = Ok (s', rs) ->
  exists s1 rs1 r, t_run zero c s os = Ok (s1, rs1) /\ t_step zero c s1 o = Ok (s', r).
Proof.
  revert s rs. induction os as [|a os IH]; intros s rs; cbn [app t_run].
  - destruct (t_step zero c s o) as [[s1 r]| |] eqn:Es; cbn [rbind fst snd]; [|done..]. intros E. injection E as -> _.
    exists s, [], r. by split.
  - destruct (t_step zero c s a) as [[s1 r]| |]; cbn [rbind fst snd]; [|done..].
    destruct (t_run zero c s1 (os ++ [o])) as [[s2 rs2]| |] eqn:E2; cbn [rbind fst snd]; [|done..]. intros E. injection E as -> _.
    destruct (IH s1 rs2 E2) as (s3 & rs3 & r3 & H1 & H2). rewrite H1. cbn [rbind fst snd]. by do 3 eexists.
Qed.

Lemma shape_reuse os o s rs s' r : Forall (top_ok c) (os ++ [o]) ->
  t_run zero c (tree_zero c) os = Ok (s, rs) -> t_step zero c s o = Ok (s', r) -> t_n s < t_n s' -> t_avail s' = [].
Proof.
  intros Hok H1 H2. apply Forall_app in Hok as [Hok1 Hok2]. apply Forall_cons in Hok2 as [Hoko _].
  destruct (shape_run os _ _ SInv_zero Hok1) as (s2 & rs2 & P2 & E2 & Hi2 & Hp2). rewrite E2 in H1. injection H1 as -> ->.
  destruct (shape_step s P2 o Hi2 Hoko) as (s3 & r3 & P3 & E3 & _ & _ & Hg).
  rewrite E3 in H2. by injection H2 as -> ->.
Qed.

Lemma shape_memory os : forall s rs B, Forall (top_ok c) os -> at_most_stops zero c os B ->
  t_run zero c (tree_zero c) os = Ok (s, rs) -> t_n s <= 2 + 2 * B.
Proof.
  induction os as [|o os IH] using rev_ind; intros s rs B Hok HB Hrun.
  { cbn [t_run] in Hrun. injection Hrun as <- _. cbn [tree_zero new_tree t_n]. lia. }
  destruct (shape_run _ _ _ SInv_zero Hok) as (s' & rs' & P & E & Hi & _). rewrite E in Hrun. injection Hrun as -> ->.
  destruct (t_run_snoc _ _ _ _ _ E) as (s1 & rs1 & r & H1 & H2).
  pose proof (shape_reuse os o s1 rs1 s r Hok H1 H2) as Hg.
  apply Forall_app in Hok as [Hok1 _].
  assert (HB1 : at_most_stops zero c os B).
  { intros o1 o2 sa ra va -> Ha Hb. apply (HB o1 (o2 ++ [o]) sa ra va); [by rewrite app_assoc|done|done]. }
  pose proof (IH s1 rs1 B Hok1 HB1 H1) as Hn1.
  destruct (N.lt_ge_cases (t_n s1) (t_n s)) as [Hlt|Hge]; [|lia].
  destruct (shape_nodes s P Hi) as (_ & Hn & _). rewrite (Hg Hlt) in Hn. cbn [length] in Hn.
  destruct (shape_iter s P Hi) as (vss & it & L1 & _ & L2 & _).
  assert (HBs : N.of_nat (length vss) <= B).
  { apply (HB (os ++ [o]) [] s rs vss); [by rewrite app_nil_r|done|]. unfold iter_all. by rewrite L1. }
  lia.
Qed.
End Runs.
