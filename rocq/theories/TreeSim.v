(** The tree over 64-bit ids: every node has the key 0, so all of them keep their
    first value in one slot.  Its run follows that of a tree of units, in which
    the sharing cannot be seen, together with the content of that slot. *)
From Verif Require Import TreeSpec TreeMain.
From Coq Require Import Lia ZifyBool ZifyNat ZifyN.
Local Open Scope N_scope.

Definition rsim {A B} (R : A -> B -> Prop) (x : res A) (y : res B) : Prop :=
  match x, y with
  | Ok a, Ok b => R a b
  | Err e, Err e' => e = e'
  | Panic, Panic => True
  | _, _ => False
  end.

Lemma rsim_bind {A B A' B'} (R : A -> B -> Prop) (S : A' -> B' -> Prop) x y f g :
  rsim R x y -> (forall a b, R a b -> rsim S (f a) (g b)) -> rsim S (rbind x f) (rbind y g).
Proof. intros H Hf. destruct x, y; cbn in *; try done. by apply Hf. Qed.

Lemma rsim_if {A B} (R : A -> B -> Prop) (b : bool) x y x' y' :
  (b = true -> rsim R x x') -> (b = false -> rsim R y y') -> rsim R (if b then x else y) (if b then x' else y').
Proof. destruct b; auto. Qed.

Section Sim.
Context {T : Type} (zero : T).
Notation c := cfg_id64.

(** [cell]: what the slot holds. *)
Record Sim (cell : T) (s : tree T) (u : tree unit) : Prop := MkSim {
  sm_fn : t_leftfn u = t_leftfn s;
  sm_len : t_length s = 64;
  sm_len' : t_length u = 64;
  sm_nodes : t_nodes u = t_nodes s;
  sm_n : t_n u = t_n s;
  sm_cap : t_cap u = t_cap s;
  sm_avail : t_avail u = t_avail s;
  sm_gen : t_gen u = t_gen s;
  sm_cnt : forall i nd, t_nodes s !! i = Some nd -> n_cnt nd <= 1;
  sm_cell : val_at zero s 0 = cell;
  sm_only : forall k, k <> 0 -> t_vals s !! k = None }.

Definition Sim2 (cell : T) {B} (a : tree T * B) (b : tree unit * B) : Prop :=
  Sim cell (fst a) (fst b) /\ snd a = snd b.

Lemma key_0 {A} (s : tree A) i k : t_length s = 64 -> k < 2 ^ 64 -> slot s i k = k.
Proof.
  intros Hl Hk. unfold slot, key. rewrite Hl. unfold ushl, uadd. rewrite N.shiftl_mul_pow2.
  rewrite N.mod_mul by done. rewrite N.add_0_l. by apply N.mod_small.
Qed.

Lemma get_node_sim cell s u i : Sim cell s u ->
  rsim (fun a b => a = b /\ n_cnt a <= 1 /\ t_nodes s !! i = Some a) (get_node s i) (get_node u i).
Proof.
  intros H. unfold get_node. rewrite (sm_nodes _ _ _ H). destruct (t_nodes s !! i) as [nd|] eqn:E; [|done].
  cbn. split; [done|]. split; [by apply (sm_cnt _ _ _ H i)|done].
Qed.

Lemma with_nodes_sim cell s u ns : Sim cell s u -> (forall i nd, ns !! i = Some nd -> n_cnt nd <= 1) ->
  Sim cell (with_nodes s ns) (with_nodes u ns).
Proof. intros []. by constructor. Qed.
Lemma with_avail_sim cell s u av : Sim cell s u -> Sim cell (with_avail s av) (with_avail u av).
Proof. intros []. by constructor. Qed.

Lemma upd_node_sim cell s u i f f' : Sim cell s u -> (forall nd, f nd = f' nd) ->
  (forall nd, t_nodes s !! i = Some nd -> n_cnt (f nd) <= 1) ->
  rsim (Sim cell) (upd_node s i f) (upd_node u i f').
Proof.
  intros H Hff Hf. unfold upd_node. eapply rsim_bind; [by apply (get_node_sim cell)|]. intros a b (<- & Ha & Hi).
  cbn. rewrite (sm_nodes _ _ _ H), <- Hff. apply with_nodes_sim; [done|]. intros j nd.
  destruct (decide (j = i)) as [->|Hj].
  - rewrite lookup_insert. intros E. injection E as <-. by apply Hf.
  - rewrite lookup_insert_ne by done. by apply (sm_cnt _ _ _ H).
Qed.

Lemma upd_same_sim cell s u i f : Sim cell s u -> (forall nd, n_cnt (f nd) = n_cnt nd) ->
  rsim (Sim cell) (upd_node s i f) (upd_node u i f).
Proof.
  intros H Hf. apply upd_node_sim; [done|done|]. intros nd Hnd. rewrite Hf. by apply (sm_cnt _ _ _ H i).
Qed.

Lemma new_node_sim cell s u x n : Sim cell s u -> rsim (Sim2 cell) (new_node s x n) (new_node u x n).
Proof.
  intros H. unfold new_node. rewrite (sm_avail _ _ _ H). destruct (t_avail s) as [|j av].
  - cbn. split; [|by rewrite (sm_n _ _ _ H)]. destruct H. cbn [fst].
    rewrite sm_fn0, sm_nodes0, sm_n0, sm_cap0, sm_gen0. constructor; cbn; try done.
    intros i nd. destruct (decide (i = t_n s)) as [->|Hi].
    + rewrite lookup_insert. intros E. injection E as <-. cbn. lia.
    + rewrite lookup_insert_ne by done. by apply sm_cnt0.
  - eapply rsim_bind.
    { apply upd_node_sim; [by apply with_avail_sim|done|]. intros nd _. cbn. lia. }
    intros a b Hab. cbn. by split.
Qed.

(** addVal as Set calls it. *)
Lemma add_val_sim cell s u v i : Sim cell s u ->
  rsim (Sim2 v) (add_val zero s v i (Some (fun _ _ => true)) (Some (fun _ => v)))
                (add_val () u () i (Some (fun _ _ => true)) (Some (fun _ => ()))).
Proof.
  intros H. unfold add_val. eapply rsim_bind; [by apply (get_node_sim cell)|]. intros nd b (<- & Hc & Hnd).
  assert (Hval : forall vs, Sim v (with_vals s (<[0 := v]> (t_vals s))) (with_vals u vs)).
  { intros vs. destruct H. constructor; cbn; try done; [unfold val_at; cbn; by rewrite lookup_insert|].
    intros k Hk. rewrite lookup_insert_ne by done. by auto. }
  destruct (N.to_nat (n_cnt nd)) as [|k] eqn:Hn; cbn [find_match].
  - cbv zeta. rewrite !key_0 by first [apply H|lia].
    replace (n_cnt nd) with 0 by lia.
    eapply rsim_bind.
    { apply upd_node_sim; [apply Hval|done|]. intros nd' _. cbn. lia. }
    intros a b Hab. cbn. by split.
  - rewrite !key_0 by first [apply H|lia]. cbn. split; [apply Hval|done].
Qed.

Lemma add_leaf_sim cell s u p d x v : Sim cell s u ->
  rsim (Sim2 v) (add_leaf zero s p d x v (Some (fun _ _ => true)) (Some (fun _ => v)))
                (add_leaf () u p d x () (Some (fun _ _ => true)) (Some (fun _ => ()))).
Proof.
  intros H. unfold add_leaf. eapply rsim_bind; [by apply (new_node_sim cell)|]. intros a a' [Ha E]. rewrite <- E.
  eapply rsim_bind; [by apply (add_val_sim cell)|]. intros b b' [Hb Eb].
  eapply rsim_bind; [apply (upd_same_sim v); [done|by destruct d]|]. intros s1 u1 H1.
  eapply rsim_bind; [by apply (get_node_sim v)|]. intros nd nd' (<- & _). cbn. split; [done|]. cbn. by rewrite Eb.
Qed.

Lemma left_bit_sim cell s u x : Sim cell s u -> rsim eq (left_bit s x) (left_bit u x).
Proof. intros H. unfold left_bit. rewrite (sm_fn _ _ _ H). by destruct (t_leftfn s). Qed.

Lemma replace_child_sim cell s u p i j : Sim cell s u ->
  rsim (Sim cell) (replace_child s p i j) (replace_child u p i j).
Proof.
  intros H. unfold replace_child. eapply rsim_bind; [by apply (get_node_sim cell)|]. intros nd nd' (<- & _).
  apply rsim_if; [intros _; by apply upd_same_sim|intros _]. apply rsim_if; [intros _; by apply upd_same_sim|done].
Qed.

Lemma add_loop_sim cell v fuel : forall s u p i x, Sim cell s u ->
  rsim (Sim2 v) (add_loop zero c fuel s p i x v (Some (fun _ _ => true)) (Some (fun _ => v)))
                (add_loop () c fuel u p i x () (Some (fun _ _ => true)) (Some (fun _ => ()))).
Proof.
  induction fuel as [|fuel IH]; intros s u p i x H; [done|]. cbn [add_loop].
  apply rsim_if; [done|intros _]. eapply rsim_bind; [by apply (get_node_sim cell)|]. intros nd nd' (<- & _).
  apply rsim_if; [done|intros _]. apply rsim_if; [done|intros _].
  apply rsim_if; intros _.
  { apply rsim_if; intros _.
    - eapply rsim_bind; [by apply (add_val_sim cell)|]. intros a a' [Ha E].
      eapply rsim_bind; [by apply (get_node_sim v)|]. intros n1 n2 (<- & _). cbn. split; [done|]. cbn. by rewrite E.
    - eapply rsim_bind; [by apply (new_node_sim cell)|]. intros a a' [Ha E]. rewrite <- E.
      eapply rsim_bind; [by apply (add_val_sim cell)|]. intros b b' [Hb Eb].
      eapply rsim_bind; [by apply (upd_same_sim v)|]. intros s1 u1 H1.
      eapply rsim_bind; [by apply (get_node_sim v)|]. intros n1 n2 (<- & _).
      eapply rsim_bind; [by apply (left_bit_sim v)|]. intros lb lb' <-.
      eapply rsim_bind; [apply (upd_same_sim v); [done|by destruct lb]|]. intros s2 u2 H2.
      eapply rsim_bind; [by apply (replace_child_sim v)|]. intros s3 u3 H3.
      eapply rsim_bind; [by apply (get_node_sim v)|]. intros n3 n4 (<- & _). cbn. split; [done|]. cbn. by rewrite Eb. }
  apply rsim_if; intros _.
  { apply rsim_if; intros _; apply rsim_if; intros _; try (by apply (add_leaf_sim cell)); by apply IH. }
  eapply rsim_bind; [by apply (new_node_sim cell)|]. intros a a' [Ha E]. rewrite <- E.
  eapply rsim_bind; [by apply (new_node_sim cell)|]. intros a1 a1' [Ha1 E1]. rewrite <- E1.
  eapply rsim_bind; [by apply (add_val_sim cell)|]. intros b b' [Hb Eb].
  eapply rsim_bind; [by apply (upd_same_sim v)|]. intros s1 u1 H1.
  eapply rsim_bind; [by apply (get_node_sim v)|]. intros n1 n2 (<- & _).
  eapply rsim_bind; [by apply (left_bit_sim v)|]. intros lb lb' <-.
  eapply rsim_bind; [apply (upd_same_sim v); [done|by destruct lb]|]. intros s2 u2 H2.
  eapply rsim_bind; [by apply (replace_child_sim v)|]. intros s3 u3 H3.
  eapply rsim_bind; [by apply (get_node_sim v)|]. intros n3 n4 (<- & _). cbn. split; [done|]. cbn. by rewrite Eb.
Qed.

Lemma reserve_sim cell s u : Sim cell s u -> Sim cell (reserve s) (reserve u).
Proof.
  intros H. unfold reserve. rewrite (sm_avail _ _ _ H), (sm_cap _ _ _ H), (sm_n _ _ _ H).
  destruct (_ <? _); [|done]. destruct H. by constructor.
Qed.

Lemma set_sim cell s u x v : Sim cell s u ->
  rsim (Sim2 v) (tree_Set zero c s x v) (tree_Set () c u x ()).
Proof.
  intros H. apply reserve_sim in H. unfold tree_Set, tree_add. cbv zeta.
  eapply rsim_bind; [by apply (get_node_sim cell)|]. intros nd nd' (<- & _).
  apply rsim_if; intros _.
  { eapply rsim_bind; [by apply (add_val_sim cell)|]. intros a a' [Ha E].
    eapply rsim_bind; [by apply (get_node_sim v)|]. intros n1 n2 (<- & _). cbn. split; [done|]. cbn. by rewrite E. }
  apply rsim_if; intros _; apply rsim_if; intros _;
    try (by apply (add_leaf_sim cell)); by apply (add_loop_sim cell).
Qed.

(* --------------------------------------------------------------- Delete *)
Lemma del_find_sim cell fuel : forall s u p i x, Sim cell s u ->
  rsim (fun a b => a = b /\ forall t p, a = Some (t, p) -> t <> 0) (del_find c fuel s p i x) (del_find c fuel u p i x).
Proof.
  induction fuel as [|fuel IH]; intros s u p i x H; [done|]. cbn [del_find].
  apply rsim_if; [done|intros Hi]. apply N.eqb_neq in Hi. eapply rsim_bind; [by apply (get_node_sim cell)|]. intros nd nd' (<- & _).
  apply rsim_if; [done|intros _].
  apply rsim_if; [intros _; cbn; split; [done|]; by intros t q [= <- <-]|intros _]. by apply IH.
Qed.

Lemma lift_child_sim cell s u t p ch : Sim cell s u -> rsim (Sim cell) (lift_child s t p ch) (lift_child u t p ch).
Proof.
  intros H. unfold lift_child. eapply rsim_bind; [by apply (get_node_sim cell)|]. intros pn pn' (<- & _).
  eapply rsim_bind; [apply (upd_same_sim cell); [done|by destruct (_ =? _)]|]. intros s1 u1 H1.
  eapply rsim_bind; [by apply (get_node_sim cell)|]. intros tn tn' (<- & _).
  eapply rsim_bind; [by apply (get_node_sim cell)|]. intros cn cn' (<- & _).
  rewrite (sm_len _ _ _ H1), (sm_len' _ _ _ H1).
  eapply (rsim_bind eq); [by destruct (merge_from_nodes _ _ _)|]. intros m m' <-.
  by apply upd_same_sim.
Qed.

Lemma move_loop_sim a b n : forall k s u, Sim zero s u -> k + N.of_nat n <= 1 ->
  Sim zero (move_loop zero s a b k n) (move_loop () u a b k n).
Proof.
  induction n as [|n IH]; intros k s u H Hk; [done|]. cbn [move_loop]. apply IH; [|lia].
  assert (k = 0) as -> by lia. rewrite !key_0 by first [apply H|lia].
  destruct H. constructor; cbn; try done; [unfold val_at; cbn; by rewrite lookup_delete|].
  intros k Hk0. rewrite lookup_delete_ne, lookup_insert_ne by done. by auto.
Qed.

Lemma move_tags_sim s u a b nb : Sim zero s u -> t_nodes s !! b = Some nb -> n_cnt nb = 0 ->
  rsim (Sim zero) (move_tags zero s a b) (move_tags () u a b).
Proof.
  intros H Hb Hnb. unfold move_tags. eapply rsim_bind; [by apply (get_node_sim zero)|]. intros na na' (<- & Hc & Ha).
  assert (H1 : Sim zero (move_loop zero s a b 0 (N.to_nat (n_cnt na))) (move_loop () u a b 0 (N.to_nat (n_cnt na)))).
  { apply move_loop_sim; [done|lia]. }
  cbv zeta. eapply rsim_bind.
  { apply (upd_node_sim zero); [done|done|]. intros nd Hnd.
    assert (Hsame : forall n k (s : tree T), t_nodes (move_loop zero s a b k n) = t_nodes s).
    { clear. induction n as [|n IH]; intros k s; cbn [move_loop]; [done|]. by rewrite IH. }
    rewrite Hsame, Hb in Hnd. injection Hnd as <-. cbn. lia. }
  intros s2 u2 H2. apply upd_node_sim; [done|done|]. intros nd _. cbn. lia.
Qed.

Lemma merge_sibling_sim s u p sb pn : Sim zero s u -> t_nodes s !! p = Some pn -> n_cnt pn = 0 ->
  rsim (Sim zero) (merge_sibling zero s p sb) (merge_sibling () u p sb).
Proof.
  intros H Hp Hpn. unfold merge_sibling. eapply rsim_bind; [by apply (get_node_sim zero)|]. intros pn1 pn' (<- & _ & Hp1).
  eapply rsim_bind; [by apply (get_node_sim zero)|]. intros sn sn' (<- & _).
  rewrite (sm_len _ _ _ H), (sm_len' _ _ _ H).
  eapply (rsim_bind eq); [by destruct (merge_from_nodes _ _ _)|]. intros m m' <-.
  assert (Hu : rsim (fun s1 u1 => Sim zero s1 u1 /\ exists n1, t_nodes s1 !! p = Some n1 /\ n_cnt n1 = 0)
    (upd_node s p (set_id (fst m) (snd m))) (upd_node u p (set_id (fst m) (snd m)))).
  { pose proof (upd_same_sim zero s u p (set_id (fst m) (snd m)) H (fun _ => eq_refl)) as Hu.
    unfold upd_node in *. rewrite (get_node_eq s p pn Hp) in *. cbn [rbind] in *.
    destruct (get_node u p) as [nu| |]; cbn [rbind rsim] in *; [|done..]. split; [done|].
    cbn [with_nodes t_nodes]. exists (set_id (fst m) (snd m) pn). by rewrite lookup_insert. }
  eapply rsim_bind; [exact Hu|]. intros s1 u1 (H1 & n1 & Hn1 & Hc1).
  eapply rsim_bind; [by apply (move_tags_sim _ _ _ _ n1)|]. intros s2 u2 H2.
  eapply rsim_bind; [by apply (get_node_sim zero)|]. intros sn1 sn2 (<- & _).
  eapply rsim_bind; [by apply (upd_same_sim zero)|]. intros s3 u3 H3. cbn.
  rewrite (sm_avail _ _ _ H3). by apply with_avail_sim.
Qed.

Lemma delete_node_sim s u t p : Sim zero s u -> rsim (Sim zero) (delete_node zero s t p) (delete_node () u t p).
Proof.
  intros H. unfold delete_node. apply rsim_if; [done|intros _].
  eapply rsim_bind; [by apply (get_node_sim zero)|]. intros tn tn' (<- & _).
  apply rsim_if; [done|intros _]. eapply (rsim_bind (Sim zero)).
  { apply rsim_if; [intros _; by apply lift_child_sim|intros _].
    apply rsim_if; [intros _; by apply lift_child_sim|intros _].
    eapply rsim_bind; [by apply (get_node_sim zero)|]. intros pn pn' (<- & _ & Hp).
    assert (Hm : forall (f : node -> node) sb, (forall nd, n_cnt (f nd) = n_cnt nd) ->
      rsim (Sim zero)
        (do s1 <- upd_node s p f; if (1 <? p) && (n_cnt pn =? 0) && negb (sb =? 0) then merge_sibling zero s1 p sb else Ok s1)
        (do s1 <- upd_node u p f; if (1 <? p) && (n_cnt pn =? 0) && negb (sb =? 0) then merge_sibling () s1 p sb else Ok s1)).
    { intros f sb Hf. pose proof (upd_same_sim zero s u p f H Hf) as Hu. unfold upd_node in *.
      rewrite (get_node_eq s p pn Hp) in *. cbn [rbind] in *.
      destruct (get_node u p) as [nu| |]; cbn [rbind rsim] in *; [|done..].
      apply rsim_if; [|done]. intros Hb. apply andb_true_iff in Hb as [Hb _]. apply andb_true_iff in Hb as [_ Hb].
      apply N.eqb_eq in Hb. apply (merge_sibling_sim _ _ _ _ (f pn)); [done| |by rewrite Hf].
      cbn [with_nodes t_nodes]. by rewrite lookup_insert. }
    apply rsim_if; intros _; by apply Hm. }
  intros s1 u1 H1. eapply rsim_bind; [by apply (upd_same_sim zero)|]. intros s2 u2 H2. cbn.
  rewrite (sm_avail _ _ _ H2). by apply with_avail_sim.
Qed.

(** deleteVal on a node with a value. *)
Lemma delete_val_sim cell s u i (m : T -> T -> bool) (v : T) nd : Sim cell s u -> i <> 0 -> t_nodes s !! i = Some nd -> n_cnt nd <> 0 ->
  rsim (fun (a : tree T * (N * N)) (b : tree unit * (N * N)) => snd a = snd b /\ snd a = (if m cell v then (1, 0) else (0, 1)) /\
          Sim (if m cell v then zero else cell) (fst a) (fst b))
    (delete_val zero s i v m) (delete_val () u i () (fun _ _ => m cell v)).
Proof.
  intros H Hi Hnd Hc0. pose proof (sm_cnt _ _ _ H i nd Hnd) as Hc. assert (Hc1 : n_cnt nd = 1) by lia.
  unfold delete_val, vals_for_node. rewrite (proj2 (N.eqb_neq _ _) Hi).
  assert (Hndu : t_nodes u !! i = Some nd) by (by rewrite (sm_nodes _ _ _ H)).
  rewrite (get_node_eq s i nd Hnd), (get_node_eq u i nd Hndu). cbn [rbind]. rewrite Hc1.
  change (N.to_nat 1) with 1%nat. cbn [seq fmap list_fmap delete_slots]. change (N.of_nat 0) with 0.
  rewrite !key_0 by first [apply H|lia]. rewrite (sm_cell _ _ _ H).
  set (s1 := with_vals s _). set (u1 := with_vals u _).
  assert (H1 : Sim zero s1 u1).
  { destruct H. constructor; cbn; try done; [unfold val_at; cbn; by rewrite lookup_delete|].
    intros k Hk. rewrite lookup_delete_ne by done. by auto. }
  rewrite (upd_node_eq s1 i _ nd) by done. rewrite (upd_node_eq u1 i _ nd) by done. cbn [rbind].
  set (s2 := with_nodes s1 _). set (u2 := with_nodes u1 _).
  assert (H2 : Sim zero s2 u2).
  { unfold s2, u2. rewrite (sm_nodes _ _ _ H1). apply with_nodes_sim; [done|]. intros j nd'.
    destruct (decide (j = i)) as [->|Hj].
    - rewrite lookup_insert. intros E. injection E as <-. cbn. lia.
    - rewrite lookup_insert_ne by done. by apply (sm_cnt _ _ _ H1). }
  cbn [put_back]. destruct (m cell v); [done|].
  unfold add_val. rewrite (get_node_eq s2 i (set_cnt 0 nd)) by (cbn; by rewrite lookup_insert).
  rewrite (get_node_eq u2 i (set_cnt 0 nd)) by (cbn; by rewrite lookup_insert).
  cbn [rbind set_cnt n_cnt]. change (N.to_nat 0) with 0%nat. cbn [find_match].
  rewrite !key_0 by first [apply H2|lia].
  set (s3 := with_vals s2 _). set (u3 := with_vals u2 _).
  assert (H3 : Sim cell s3 u3).
  { destruct H2. constructor; cbn; try done; [unfold val_at; cbn; by rewrite lookup_insert|].
    intros k Hk. rewrite lookup_insert_ne by done. by auto. }
  pose proof (upd_node_sim cell s3 u3 i (set_cnt (0 + 1)) (set_cnt (0 + 1)) H3 (fun _ => eq_refl)) as Hu.
  rewrite (upd_node_eq s3 i _ (set_cnt 0 nd)) in * by (cbn; by rewrite lookup_insert).
  rewrite (upd_node_eq u3 i _ (set_cnt 0 nd)) in * by (cbn; by rewrite lookup_insert).
  cbn [rbind fst snd rsim] in *. split; [done|]. split; [done|]. apply Hu. intros nd' _. cbn. lia.
Qed.

(** Delete: [n] is what it returns. *)
Definition after_delete (cell : T) (n : N) : T := if n =? 0 then cell else zero.
Lemma delete_sim cell s u x (m : T -> T -> bool) (v : T) : Sim cell s u ->
  rsim (fun (a : tree T * N) (b : tree unit * N) => snd a = snd b /\ Sim (after_delete cell (snd a)) (fst a) (fst b))
    (tree_Delete zero c s x m v) (tree_Delete () c u x (fun _ _ : unit => m cell v) ()).
Proof.
  intros H. unfold tree_Delete. eapply rsim_bind; [by apply (get_node_sim cell)|]. intros root root' (<- & _).
  eapply (rsim_bind (fun a b => a = b /\ forall t p, a = Some (t, p) -> t <> 0)).
  { apply rsim_if; [intros _; cbn; split; [done|]; by intros t p [= <- <-]|intros _]. by apply (del_find_sim cell). }
  intros tg tg' [<- Hnz]. destruct tg as [[t p]|]; [|by split]. specialize (Hnz t p eq_refl).
  eapply rsim_bind; [by apply (get_node_sim cell)|]. intros tn tn' (<- & _ & Ht).
  apply rsim_if; [by split|intros Hc0]. apply N.eqb_neq in Hc0.
  eapply rsim_bind; [by apply (delete_val_sim cell s u t m v tn)|].
  intros [s1 [d k]] [u1 [d' k']] (E & E2 & H1). cbn [fst snd] in *. injection E as <- <-.
  destruct (m cell v); injection E2 as -> ->; cbn [N.ltb N.compare].
  - eapply rsim_bind; [by apply delete_node_sim|]. intros s2 u2 H2. cbn. by split.
  - cbn. by split.
Qed.
End Sim.
