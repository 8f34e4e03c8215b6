(** The value map lists the values of the plain map. *)
From Verif Require Import TreeSpec TreePrintModel TreeMain.
From Coq Require Import Lia ZifyBool ZifyNat ZifyN.
Local Open Scope N_scope.

Section Print.
Context {T : Type} (zero : T) (c : idcfg).
Notation w := (id_w c).
Context {Hwide : wide T c} (Hlt : narrow T c).
Notation tree := (tree T).

(** The entries of the value map, in the order of the trie. *)
Fixpoint entries (s : tree) (t : gt T) : list (N * T) :=
  match t with
  | GNil => []
  | GNode j _ vs l r => imap (fun k v => (slot s j (N.of_nat k), v)) vs ++ entries s l ++ entries s r
  end.

Lemma entries_vals s t : (entries s t).*2 = concat (pre [] t).*2.
Proof.
  generalize (@nil bool). induction t as [|j b vs l IHl r IHr]; intros p; cbn [entries pre]; [done|].
  rewrite !fmap_app, !concat_app, (IHl (p ++ b)), (IHr (p ++ b)). f_equal.
  transitivity vs.
  - apply list_eq. intros k. rewrite list_lookup_fmap, list_lookup_imap. by destruct (vs !! k).
  - destruct vs; [done|]. cbn. by rewrite app_nil_r.
Qed.

Lemma entries_in s i t k v : rep zero c s i t -> (k, v) ∈ entries s t ->
  exists j n nd, j ∈ fp t /\ t_nodes s !! j = Some nd /\ n < n_cnt nd /\ k = slot s j n /\ val_at zero s k = v.
Proof.
  revert i. induction t as [|j b vs l IHl r IHr]; intros i; cbn [entries rep fp]; [by rewrite elem_of_nil|].
  intros (-> & H1 & H2 & H3 & nd' & N1 & N2 & N3 & N4 & N5 & N6 & N7). rewrite !elem_of_app.
  intros [H|[H|H]].
  - apply elem_of_lookup_imap in H as (n & v' & [= -> ->] & Hn). exists j, (N.of_nat n), nd'. split; [left|].
    split; [done|]. split; [apply lookup_lt_Some in Hn; lia|]. split; [done|]. by apply N5.
  - destruct (IHl _ N6 H) as (j' & n & nd & Hj & R). exists j', n, nd. split; [|done]. right. apply elem_of_app. by left.
  - destruct (IHr _ N7 H) as (j' & n & nd & Hj & R). exists j', n, nd. split; [|done]. right. apply elem_of_app. by right.
Qed.

Lemma entries_all s i t j n : rep zero c s i t -> j ∈ fp t -> n < cnt s j -> exists v, (slot s j n, v) ∈ entries s t.
Proof.
  revert i. induction t as [|k b vs l IHl r IHr]; intros i; cbn [entries rep fp]; [by rewrite elem_of_nil|].
  intros (-> & H1 & H2 & H3 & nd' & N1 & N2 & N3 & N4 & N5 & N6 & N7). rewrite elem_of_cons, elem_of_app.
  intros [->|[Hj|Hj]] Hn.
  - unfold cnt in Hn. rewrite N1, N4 in Hn. destruct (lookup_lt_is_Some_2 vs (N.to_nat n)) as [v Hv]; [lia|].
    exists v. rewrite !elem_of_app. left. apply elem_of_lookup_imap. exists (N.to_nat n), v. by rewrite N2Nat.id.
  - destruct (IHl _ N6 Hj Hn) as (v & Hv). exists v. rewrite !elem_of_app. tauto.
  - destruct (IHr _ N7 Hj Hn) as (v & Hv). exists v. rewrite !elem_of_app. tauto.
Qed.

Lemma entries_keys s i t : small c s -> rep zero c s i t -> NoDup (fp t) -> NoDup (entries s t).*1.
Proof.
  intros Hs. revert i. induction t as [|j b vs l IHl r IHr]; intros i; cbn [entries rep fp]; [constructor|].
  intros (-> & H1 & H2 & H3 & nd' & N1 & N2 & N3 & N4 & N5 & N6 & N7) Hnd.
  apply NoDup_cons in Hnd as [Hj Hnd]. apply NoDup_app in Hnd as (Hl & Hd & Hr).
  assert (Hkey : forall t' i' k, rep zero c s i' t' -> k ∈ (entries s t').*1 ->
    exists j' n, j' ∈ fp t' /\ n < cnt s j' /\ k = slot s j' n).
  { intros t' i' k Hr' Hk. apply elem_of_list_fmap in Hk as ([k' v] & -> & Hk).
    apply (entries_in s i' t') in Hk as (j' & n & nd & A1 & A2 & A3 & A4 & _); [|done].
    exists j', n. split; [done|]. split; [unfold cnt; by rewrite A2|done]. }
  assert (Hdis : forall j1 n1 j2 n2, n1 < cnt s j1 -> n2 < cnt s j2 -> slot s j1 n1 = slot s j2 n2 -> j1 = j2 /\ n1 = n2).
  { intros j1 n1 j2 n2 A1 A2 He. destruct (small_cnt c s j1 n1 Hs A1). destruct (small_cnt c s j2 n2 Hs A2).
    by apply (small_cfg c Hlt s Hs). }
  assert (Hcj : cnt s j = N.of_nat (length vs)) by (unfold cnt; by rewrite N1).
  rewrite !fmap_app. apply NoDup_app. split; [|split; [|apply NoDup_app; split; [by eapply IHl|split; [|by eapply IHr]]]].
  - apply NoDup_alt. intros a b' k Ha Hb. rewrite list_lookup_fmap, list_lookup_imap in Ha, Hb.
    destruct (vs !! a) as [va|] eqn:Hva; [|done]. destruct (vs !! b') as [vb|] eqn:Hvb; [|done].
    cbn in Ha, Hb. injection Ha as <-. injection Hb as Hb. apply lookup_lt_Some in Hva, Hvb.
    destruct (Hdis j (N.of_nat b') j (N.of_nat a)) as [_ ?]; [lia|lia|done|lia].
  - intros k Hk1 Hk2.
    assert (H : exists n, n < cnt s j /\ k = slot s j n).
    { apply elem_of_list_fmap in Hk1 as ([k' v] & -> & Hk). apply elem_of_lookup_imap in Hk as (n & v' & [= -> ->] & Hn).
      exists (N.of_nat n). split; [apply lookup_lt_Some in Hn; lia|done]. }
    destruct H as (n & Hn & ->). apply elem_of_app in Hk2 as [Hk2|Hk2].
    + destruct (Hkey l _ _ N6 Hk2) as (j' & n' & B1 & B2 & B3). destruct (Hdis j n j' n' Hn B2 B3) as [<- _].
      apply Hj, elem_of_app. by left.
    + destruct (Hkey r _ _ N7 Hk2) as (j' & n' & B1 & B2 & B3). destruct (Hdis j n j' n' Hn B2 B3) as [<- _].
      apply Hj, elem_of_app. by right.
  - intros k Hk1 Hk2. destruct (Hkey l _ _ N6 Hk1) as (j1 & n1 & A1 & A2 & ->).
    destruct (Hkey r _ _ N7 Hk2) as (j2 & n2 & B1 & B2 & B3). destruct (Hdis j1 n1 j2 n2 A2 B2 B3) as [<- _].
    by apply (Hd j1).
Qed.

Lemma full_entries s m t : Inv zero c s m t -> map_to_list (t_vals s) ≡ₚ entries s t.
Proof.
  intros HI. pose proof (Iv_inv _ _ _ _ _ HI) as Hinv. destruct (Iv_tidy _ _ _ _ _ HI Hlt) as [Ht Hi].
  pose proof (inv_small zero c s t Hinv Hi) as Hs.
  pose proof Hinv as [Hc Ha Hr Hwf Hnd Hlv Hct]. pose proof (entries_keys s 1 t Hs Hr Hnd) as Hkeys.
  assert (Hin : forall k v, (k, v) ∈ entries s t -> t_vals s !! k = Some v).
  { intros k v Hk. apply (entries_in s 1 t k v Hr) in Hk as (j & n & nd & A1 & A2 & A3 & -> & A5).
    destruct (td_all _ Ht j n) as [x Hx]; [unfold cnt; by rewrite A2|].
    unfold val_at in A5. rewrite Hx in *. cbn in A5. by subst. }
  apply NoDup_Permutation; [apply NoDup_map_to_list|by apply NoDup_fmap_1 in Hkeys|].
  intros [k v]. rewrite elem_of_map_to_list. split; [|apply Hin]. intros Hk.
  destruct (td_in _ Ht k) as (i & n & Hn & ->); [by eexists|].
  assert (Hci : cnt s i <> 0) by lia.
  assert (Hif : i ∈ fp t).
  { apply (inv_all zero c s t i Hinv).
    - apply (ao_dom _ _ Ha). unfold cnt in Hci. destruct (t_nodes s !! i); [by eexists|done].
    - intros ->. apply Hci, (proj1 Hi).
    - intros H. by apply Hci, Hi. }
  destruct (entries_all s 1 t i n Hr Hif Hn) as (v' & Hv'). pose proof (Hin _ _ Hv') as H. rewrite H in Hk.
  by injection Hk as ->.
Qed.

Lemma full_values s m t : Inv zero c s m t -> (map_to_list (t_vals s)).*2 ≡ₚ concat (map_to_list m).*2.
Proof.
  intros Hf. rewrite (full_entries s m t Hf), entries_vals.
  pose proof (Inv_listing zero c s m t Hf) as [Hs Hin]. apply sorted_NoDup in Hs.
  assert (Hp : pre [] t ≡ₚ map_to_list m).
  { apply NoDup_Permutation; [by apply NoDup_fmap_1 in Hs|apply (NoDup_map_to_list (M := gmap (list bool)))|].
    intros [q l]. rewrite Hin. symmetry. apply (elem_of_map_to_list (M := gmap (list bool))). }
  rewrite Hp. done.
Qed.
End Print.
