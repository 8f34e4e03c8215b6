(** Proofs of the property statements about the packages tree16, tree32, tree64. *)
From Verif Require Import GTreeProofs IdProofs IdFinal IdSetSpec IdSetProofs IdSetFinal TreeFinal.
From Verif Require Import TreeSpec GTreeSpec GTreeLoop.
From Coq Require Import Lia ZifyBool ZifyNat ZifyN.
Ltac Zify.zify_post_hook ::= idtac.
From Coq Require Strings.String.
Import Coq.Strings.String.StringSyntax.
Local Open Scope string_scope.
Local Open Scope N_scope.

(* ------------------------------------------------------------------ C37 *)
(** tree16 and tree32: Get, after any history, in terms of the record of it. *)
Lemma C37_get_partial_pf : forall (L : Type) (P : gop L -> Prop) (c : gcfg) (n : N) (m : record L) (g : gtree L) x,
  c ∈ g_packages_16_32 -> g_hist P c n m g -> gid_ok c x ->
  g_get g x = match lookup_id c m x with Some e => Ok e | None => Err ENotFound end.
Proof.
  intros L P c n m g x Hc Hh Hx. by apply (get_spec c n m g (hist_G c Hc P n m g Hh) x).
Qed.

(** The record of a history with one more call. *)
Lemma hist_weaken {L} (P : gop L -> Prop) (c : gcfg) (n : N) (m : record L) (g : gtree L) :
  g_hist P c n m g -> g_hist any_op c n m g.
Proof. induction 1; [by constructor|by econstructor]. Qed.

Lemma hist_more {L} (lstr : L -> string) (c : gcfg) (n : N) (m : record L) (g : gtree L) o g' r :
  g_hist any_op c n m g -> gop_ok c o -> g_room c m o -> g_step lstr c g o = Ok (g', r) ->
  g_hist any_op c n (after c m o r) g'.
Proof. intros. by eapply hist_step. Qed.

Lemma lookup_new {L} (c : gcfg) (m : record L) x l : lookup_id c (<[prefix (gw c) x := TEntry (i_id x) (i_len x) l]> m) x =
  Some (TEntry (i_id x) (i_len x) l).
Proof. unfold lookup_id. rewrite lookup_insert. unfold same_id. cbn. by rewrite !N.eqb_refl. Qed.
Lemma lookup_same {L} (c : gcfg) (m m' : record L) x : m !! prefix (gw c) x = m' !! prefix (gw c) x ->
  lookup_id c m x = lookup_id c m' x.
Proof. unfold lookup_id. by intros ->. Qed.

(** A claim or update that succeeds is what Get returns next. *)
Lemma C37_claim_then_get_partial_pf : forall (L : Type) (lstr : L -> string) (c : gcfg) (n : N) (m : record L) (g : gtree L) o x l g',
  c ∈ g_packages_16_32 -> g_hist any_op c n m g -> o = GClaimID x l \/ o = GUpdate x l ->
  gid_ok c x -> g_room c m o -> g_step lstr c g o = Ok (g', GDone) ->
  g_get g' x = Ok (TEntry (i_id x) (i_len x) l).
Proof.
  intros L lstr c n m g o x l g' Hc Hh Ho Hx Hr Hs.
  assert (Hok : gop_ok c o) by (by destruct Ho as [-> | ->]).
  pose proof (hist_more lstr c n m g o g' _ Hh Hok Hr Hs) as Hh'.
  rewrite (C37_get_partial_pf L any_op c n _ g' x Hc Hh' Hx).
  destruct Ho as [-> | ->]; cbn [after]; by rewrite lookup_new.
Qed.

Lemma claim_all_lookup {L} (c : gcfg) (ids : list id) (l : L) : forall (m : record L) q,
  (exists x, x ∈ ids /\ q = prefix (gw c) x /\ claim_all c m ids l !! q = Some (TEntry (i_id x) (i_len x) l)) \/
  ((forall x, x ∈ ids -> q <> prefix (gw c) x) /\ claim_all c m ids l !! q = m !! q).
Proof.
  induction ids as [|x ids IH]; intros m q; cbn [claim_all fold_left].
  - right. split; [|done]. intros x Hx. by apply elem_of_nil in Hx.
  - destruct (IH (<[prefix (gw c) x := TEntry (i_id x) (i_len x) l]> m) q) as [(y & Hy & Hq & Hl)|[Hno Hl]].
    + left. exists y. split; [by right|done].
    + destruct (decide (q = prefix (gw c) x)) as [->|Hne].
      * left. exists x. split; [left|]. split; [done|]. unfold claim_all in Hl. by rewrite Hl, lookup_insert.
      * right. split.
        -- intros y Hy. apply elem_of_cons in Hy as [->|Hy]; [done|by apply Hno].
        -- unfold claim_all in Hl. by rewrite Hl, lookup_insert_ne.
Qed.

Lemma after_untouched {L} (c : gcfg) (m : record L) o r q : ~ touches c m o r q -> after c m o r !! q = m !! q.
Proof.
  intros Ht. destruct o as [x l|x l|l|s l|x|sel], r as [|e|e]; cbn [after touches] in *; try done.
  - by rewrite lookup_insert_ne.
  - by rewrite lookup_insert_ne.
  - by rewrite lookup_insert_ne.
  - destruct (claim_all_lookup c (range_prefixes c s) l m q) as [(x & Hx & Hq & _)|[_ H]]; [|done].
    exfalso. apply Ht. by exists x.
  - destruct (lookup_id c m x); [|done]. by rewrite lookup_delete_ne.
  - destruct (m !! q) as [e|] eqn:Hq.
    + apply map_filter_lookup_Some. split; [done|]. cbn. destruct (sel (te_labels e)) eqn:Hs; [|done].
      exfalso. apply Ht. by exists e.
    + apply map_filter_lookup_None. by left.
Qed.

(** Calls on other prefixes do not change what Get returns. *)
Lemma C37_other_prefixes_partial_pf : forall (L : Type) (lstr : L -> string) (c : gcfg) (n : N) (m : record L) (g : gtree L) o g' r y,
  c ∈ g_packages_16_32 -> g_hist any_op c n m g -> gop_ok c o -> g_room c m o ->
  g_step lstr c g o = Ok (g', r) -> gid_ok c y -> ~ touches c m o r (prefix (gw c) y) ->
  g_get g' y = g_get g y.
Proof.
  intros L lstr c n m g o g' r y Hc Hh Ho Hr Hs Hy Ht.
  pose proof (hist_more lstr c n m g o g' r Hh Ho Hr Hs) as Hh'.
  rewrite (C37_get_partial_pf L any_op c n _ g' y Hc Hh' Hy), (C37_get_partial_pf L any_op c n m g y Hc Hh Hy).
  by rewrite (lookup_same c (after c m o r) m y (after_untouched c m o r _ Ht)).
Qed.

(** tree64: a claim of another prefix makes Get of the first one fail. *)
Lemma C37_tree64_refuted_pf :
  exists g1 g2,
    (do g <- g_new (L := N) cfg_tree64 64; g_step dec cfg_tree64 g (GClaimID (MyId 0 1) 1)) = Ok (g1, GDone) /\
    g_get g1 (MyId 0 1) = Ok (TEntry 0 1 1) /\
    g_step dec cfg_tree64 g1 (GClaimID (MyId (2 ^ 63) 1) 2) = Ok (g2, GDone) /\
    g_get g2 (MyId 0 1) = Err ENotFound.
Proof.
  do 2 eexists. split; [vm_compute; reflexivity|]. split; [vm_compute; reflexivity|].
  split; vm_compute; reflexivity.
Qed.

(* ------------------------------------------------------------------ C38 *)
(** False in every reachable tree: ClaimID of a claimed id succeeds and replaces
    the entry. *)
Lemma C38_claim_of_claimed_refuted_pf : forall (L : Type) (lstr : L -> string) (c : gcfg) (n : N) (m : record L) (g : gtree L) x e l,
  c ∈ g_packages_16_32 -> g_hist any_op c n m g -> gid_ok c x -> i_id x < 2 ^ n ->
  g_room c m (GClaimID x l) -> g_get g x = Ok e ->
  exists g', g_step lstr c g (GClaimID x l) = Ok (g', GDone) /\ g_get g' x = Ok (TEntry (i_id x) (i_len x) l).
Proof.
  intros L lstr c n m g x e l Hc Hh Hx Hn Hr _.
  destruct (step_G lstr c Hc n m g (GClaimID x l) (hist_G c Hc _ n m g Hh) Hx Hr) as (g' & r & Hs & Hret & _).
  cbn [returns] in Hret. destruct (N.leb_spec (2 ^ n) (i_id x)); [lia|]. subst r.
  exists g'. split; [done|]. by eapply (C37_claim_then_get_partial_pf L lstr c n m g (GClaimID x l)); eauto.
Qed.

(* ------------------------------------------------------------------ C39 *)
(** The part that holds: without ClaimRange. *)
Lemma ids_inside {L} (c : gcfg) (n : N) (m : record L) (g : gtree L) :
  c ∈ g_packages_16_32 -> g_hist no_range c n m g -> forall q e, m !! q = Some e -> te_id e < 2 ^ n.
Proof.
  intros Hc Hh. induction Hh as [g Hg|lstr m g o g' r Hh IH HP Ho Hr Hs]; [done|]. intros q e.
  destruct (step_G lstr c Hc n m g o (hist_G c Hc _ n m g Hh) Ho Hr) as (g1 & r1 & Hs' & Hret & _).
  rewrite Hs in Hs'. injection Hs' as <- <-.
  destruct o as [x l|x l|l|s l|x|sel], r as [|e'|e']; cbn [after returns] in *; try by apply IH.
  - destruct (N.leb_spec (2 ^ n) (i_id x)); [done|].
    intros He. apply lookup_insert_Some in He as [[_ <-]|[_ He]]; [done|by eapply IH].
  - destruct (N.leb_spec (2 ^ n) (i_id x)); [done|].
    intros He. apply lookup_insert_Some in He as [[_ <-]|[_ He]]; [done|by eapply IH].
  - destruct Hret as [(v & _ & Hv)|[_ ?]]; [|done].
    destruct (N.leb_spec (2 ^ n) v); [done|]. injection Hv as ->.
    intros He. apply lookup_insert_Some in He as [[_ <-]|[_ He]]; [done|by eapply IH].
  - done.
  - destruct (lookup_id c m x); [|by apply IH]. intros He. apply lookup_delete_Some in He as [_ He]. by eapply IH.
  - intros He. apply map_filter_lookup_Some in He as [He _]. by eapply IH.
Qed.

Lemma C39_ids_stay_inside_partial_pf : forall (L : Type) (c : gcfg) (n : N) (m : record L) (g : gtree L) es,
  c ∈ g_packages_16_32 -> g_hist no_range c n m g -> g_get_all g = Ok (Some <$> es) ->
  Forall (fun e => te_id e < 2 ^ n) es.
Proof.
  intros L c n m g es Hc Hh Hall.
  pose proof (ids_inside c n m g Hc Hh) as Hin.
  destruct (get_all_spec c n m g (hist_G c Hc _ n m g Hh)) as (es' & He & Hga). rewrite Hga in Hall.
  injection Hall as Heq. assert (es' = es) as ->.
  { clear -Heq. revert es Heq. induction es' as [|a es' IH]; intros [|b es] H; try done. cbn in H.
    injection H as -> H. f_equal. by apply IH. }
  apply Forall_forall. intros e Hein. apply He in Hein. by eapply Hin.
Qed.

(** An id above the size is refused and the tree is unchanged. *)
Lemma C39_claims_above_refused_partial_pf : forall (L : Type) (lstr : L -> string) (c : gcfg) (n : N) (m : record L) (g : gtree L) x l,
  c ∈ g_packages_16_32 -> g_hist any_op c n m g -> gid_ok c x -> 2 ^ n <= i_id x ->
  g_step lstr c g (GClaimID x l) = Ok (g, GErr EMaxId) /\ g_step lstr c g (GUpdate x l) = Ok (g, GErr EMaxId).
Proof.
  intros L lstr c n m g x l Hc Hh Hx Hn. pose proof (hist_G c Hc _ n m g Hh) as HG.
  cbn [g_step]. unfold g_claim_id, g_update. rewrite (validate_spec c n m g x HG).
  by rewrite (proj2 (N.leb_le _ _) Hn).
Qed.

(** ClaimRange: ids above the size of a tree of length 4 are claimed. *)
Lemma C39_claim_range_refuted_pf :
  exists g,
    (do g <- g_new (L := N) cfg_tree16 4; g_step dec cfg_tree16 g (GClaimRange "16-31" 7)) = Ok (g, GDone) /\
    g_get g (MyId 16 12) = Ok (TEntry 16 12 7).
Proof. eexists. split; vm_compute; reflexivity. Qed.

(* ------------------------------------------------------------------ C40 *)
Lemma C40_release_partial_pf : forall (L : Type) (lstr : L -> string) (c : gcfg) (n : N) (m : record L) (g : gtree L) x,
  c ∈ g_packages_16_32 -> g_hist any_op c n m g -> gid_ok c x -> i_id x < 2 ^ n ->
  g_room c m (GReleaseID x) ->
  exists g', g_step lstr c g (GReleaseID x) = Ok (g', GDone) /\
    match g_get g x with
    | Ok _ => g_get g' x = Err ENotFound /\
              forall y, gid_ok c y -> prefix (gw c) y <> prefix (gw c) x -> g_get g' y = g_get g y
    | _ => g' = g
    end.
Proof.
  intros L lstr c n m g x Hc Hh Hx Hn Hr. pose proof (hist_G c Hc _ n m g Hh) as HG.
  destruct (step_G lstr c Hc n m g (GReleaseID x) HG Hx Hr) as (g' & r & Hs & Hret & _).
  cbn [returns] in Hret. destruct (N.leb_spec (2 ^ n) (i_id x)); [lia|]. subst r.
  exists g'. split; [done|]. pose proof (hist_more lstr c n m g (GReleaseID x) g' _ Hh Hx Hr Hs) as Hh'.
  pose proof (C37_get_partial_pf L any_op c n _ g' x Hc Hh' Hx) as Hg'.
  destruct (g_get g x) as [e|e|] eqn:Hg.
  - rewrite (C37_get_partial_pf L any_op c n m g x Hc Hh Hx) in Hg.
    destruct (lookup_id c m x) as [e'|] eqn:Hl; [|done]. cbn [after] in Hg'. rewrite Hl in Hg'. split.
    + rewrite Hg'. unfold lookup_id. by rewrite lookup_delete.
    + intros y Hy Hne. eapply (C37_other_prefixes_partial_pf L lstr c n m g (GReleaseID x) g' GDone y); eauto.
  - cbn [g_step] in Hs. unfold g_release_id in Hs. rewrite (validate_spec c n m g x HG) in Hs.
    destruct (N.leb_spec (2 ^ n) (i_id x)); [lia|]. cbn [rbind] in Hs. rewrite Hg in Hs. cbn in Hs. by injection Hs.
  - rewrite (C37_get_partial_pf L any_op c n m g x Hc Hh Hx) in Hg. by destruct (lookup_id c m x).
Qed.

(* ------------------------------------------------------------------ C41, C42 *)
Lemma Some_inj_list {A} (l l' : list A) : Some <$> l = Some <$> l' -> l = l'.
Proof.
  revert l'. induction l as [|a l IH]; intros [|b l'] H; try done. cbn in H. injection H as -> H. f_equal. by apply IH.
Qed.

(** GetAll, Size and GetByLabel. *)
Lemma C42_listings_partial_pf : forall (L : Type) (P : gop L -> Prop) (c : gcfg) (n : N) (m : record L) (g : gtree L),
  c ∈ g_packages_16_32 -> g_hist P c n m g ->
  exists es, g_get_all g = Ok (Some <$> es) /\
    StronglySorted (before_entry c) es /\ (forall e, e ∈ es <-> m !! prefix (gw c) (eid e) = Some e) /\
    (forall x e, gid_ok c x -> (g_get g x = Ok e <-> e ∈ es /\ eid e = x)) /\
    g_Size g = Ok (N.of_nat (length es)) /\
    forall sel, g_get_by_label g sel = Ok (Some <$> List.filter (fun e => sel (te_labels e)) es).
Proof.
  intros L P c n m g Hc Hh. pose proof (hist_G c Hc _ n m g Hh) as HG.
  destruct (get_all_spec c n m g HG) as (es & He & Hga). exists es. split; [done|].
  split; [apply He|]. split; [apply He|]. split; [|split].
  - intros x e Hx. rewrite (get_spec c n m g HG x Hx), (proj2 He e). unfold lookup_id. split.
    + destruct (m !! prefix (gw c) x) as [e'|] eqn:Hl; [|done]. destruct (same_id e' x) eqn:Hs; [|done].
      intros [= <-]. apply same_id_eid in Hs. rewrite Hs. done.
    + intros [Hl <-]. rewrite Hl. by rewrite (proj2 (same_id_eid e (eid e)) eq_refl).
  - destruct (Size_spec c n m g HG) as (es' & He' & ->). by rewrite (entries_unique c m es' es).
  - intros sel. destruct (get_by_label_spec c n m g HG sel) as (es' & He' & ->). by rewrite (entries_unique c m es' es).
Qed.

Lemma C41_release_by_label_partial_pf : forall (L : Type) (lstr : L -> string) (c : gcfg) (n : N) (m : record L) (g : gtree L) sel es,
  c ∈ g_packages_16_32 -> g_hist any_op c n m g -> g_room c m (GReleaseByLabel sel) ->
  g_get_all g = Ok (Some <$> es) ->
  exists g', g_step lstr c g (GReleaseByLabel sel) = Ok (g', GDone) /\
    g_get_all g' = Ok (Some <$> List.filter (fun e => negb (sel (te_labels e))) es) /\
    g_get_by_label g' sel = Ok [].
Proof.
  intros L lstr c n m g sel es Hc Hh Hr Hall. pose proof (hist_G c Hc _ n m g Hh) as HG.
  assert (Ho : gop_ok c (GReleaseByLabel sel)) by done.
  destruct (step_G lstr c Hc n m g _ HG Ho Hr) as (g' & r & Hs & Hret & HG').
  cbn [returns] in Hret. subst r. exists g'. split; [done|]. cbn [after] in HG'.
  destruct (get_all_spec c n m g HG) as (es0 & He0 & Hga). rewrite Hga in Hall. injection Hall as Heq.
  apply Some_inj_list in Heq. subst es0.
  assert (Hf : entries c (filter (fun qe : list bool * tentry L => sel (te_labels qe.2) = false) m)
                 (List.filter (fun e => negb (sel (te_labels e))) es)).
  { pose proof (entries_filter c m es (fun e => negb (sel (te_labels e))) He0) as H.
    enough (filter (fun qe : list bool * tentry L => negb (sel (te_labels qe.2)) = true) m =
            filter (fun qe : list bool * tentry L => sel (te_labels qe.2) = false) m) as <-; [done|].
    apply map_filter_ext. intros q e _. cbn. by destruct (sel _). }
  destruct (get_all_spec c n _ g' HG') as (es1 & He1 & ->). rewrite (entries_unique c _ _ _ He1 Hf).
  split; [done|].
  destruct (get_by_label_spec c n _ g' HG' sel) as (es2 & He2 & ->). rewrite (entries_unique c _ _ _ He2 Hf).
  enough (List.filter (fun e => sel (te_labels e)) (List.filter (fun e => negb (sel (te_labels e))) es) = []) as ->; [done|].
  clear. induction es as [|e es IH]; [done|]. cbn. destruct (sel (te_labels e)) eqn:H; cbn; [done|]. by rewrite H.
Qed.

(* ------------------------------------------------------------------ C43, C44 *)
(** Children: the entries with a strictly longer prefix that extends the id's. *)
Lemma C43_children_partial_pf : forall (L : Type) (P : gop L -> Prop) (c : gcfg) (n : N) (m : record L) (g : gtree L) x es,
  c ∈ g_packages_16_32 -> g_hist P c n m g -> gid_ok c x -> g_get_all g = Ok (Some <$> es) ->
  g_children c g x = Ok (Some <$> List.filter (fun e =>
    bool_decide (prefix (gw c) x `prefix_of` prefix (gw c) (eid e)) && (i_len x <? te_len e)) es).
Proof.
  intros L P c n m g x es Hc Hh Hx Hall. pose proof (hist_G c Hc _ n m g Hh) as HG.
  destruct (get_all_spec c n m g HG) as (es0 & He0 & Hga). rewrite Hga in Hall. injection Hall as Heq.
  apply Some_inj_list in Heq. subst es0.
  destruct (children_spec c Hc n m g x HG Hx) as (es1 & He1 & ->). by rewrite (entries_unique c m es1 es).
Qed.

(** Parents: exactly the entries comparable with the id (also its extensions, and
    the entry of the id itself) that are shorter than the width. *)
Lemma C44_parents_characterised_pf : forall (L : Type) (P : gop L -> Prop) (c : gcfg) (n : N) (m : record L) (g : gtree L) x es,
  c ∈ g_packages_16_32 -> g_hist P c n m g -> gid_ok c x -> g_get_all g = Ok (Some <$> es) ->
  g_parents c g x = Ok (Some <$> List.filter (fun e =>
    bool_decide (prefix (gw c) x `prefix_of` prefix (gw c) (eid e) \/ prefix (gw c) (eid e) `prefix_of` prefix (gw c) x) &&
    (te_len e <? gw c)) es).
Proof.
  intros L P c n m g x es Hc Hh Hx Hall. pose proof (hist_G c Hc _ n m g Hh) as HG.
  destruct (get_all_spec c n m g HG) as (es0 & He0 & Hga). rewrite Hga in Hall. injection Hall as Heq.
  apply Some_inj_list in Heq. subst es0.
  destruct (parents_spec c Hc n m g x HG Hx) as (es1 & He1 & ->). by rewrite (entries_unique c m es1 es).
Qed.

(** The part that holds: every strictly less specific entry is among them, and
    for an id of full length nothing else. *)
Lemma C44_parents_partial_pf : forall (L : Type) (P : gop L -> Prop) (c : gcfg) (n : N) (m : record L) (g : gtree L) x es,
  c ∈ g_packages_16_32 -> g_hist P c n m g -> gid_ok c x -> g_get_all g = Ok (Some <$> es) ->
  exists ps, g_parents c g x = Ok (Some <$> ps) /\
    (forall e, e ∈ es -> te_len e < i_len x -> prefix (gw c) (eid e) `prefix_of` prefix (gw c) x -> e ∈ ps) /\
    (i_len x = gw c -> forall e, e ∈ ps -> e ∈ es /\ te_len e < i_len x /\ prefix (gw c) (eid e) `prefix_of` prefix (gw c) x).
Proof.
  intros L P c n m g x es Hc Hh Hx Hall.
  rewrite (C44_parents_characterised_pf L P c n m g x es Hc Hh Hx Hall). eexists. split; [done|].
  split.
  - intros e He Hl Hp. apply elem_of_list_In, filter_In. split; [by apply elem_of_list_In|].
    apply andb_true_iff. split; [apply bool_decide_eq_true; by right|]. apply N.ltb_lt. destruct Hx as [_ Hx]. lia.
  - intros Hl e He. apply elem_of_list_In, filter_In in He as [He Hp]. apply elem_of_list_In in He.
    split; [done|]. apply andb_true_iff in Hp as [Hp Hlt]. apply bool_decide_eq_true in Hp. apply N.ltb_lt in Hlt.
    split; [lia|]. destruct Hp as [[k Hp]|Hp]; [|done]. exfalso. apply (f_equal length) in Hp.
    rewrite app_length, !prefix_length in Hp. cbn in Hp. lia.
Qed.

Lemma C44_parents_refuted_pf :
  exists g rs,
    (do g <- g_new (L := N) cfg_tree16 16; g_run dec cfg_tree16 g [GClaimID (MyId 0 8) 1; GClaimID (MyId 0 12) 2])
      = Ok (g, rs) /\
    g_parents cfg_tree16 g (MyId 0 8) = Ok [Some (TEntry 0 8 1); Some (TEntry 0 12 2)].
Proof. do 2 eexists. split; [vm_compute; reflexivity|]. vm_compute. reflexivity. Qed.
(* ------------------------------------------------------------------ C45 *)
(** An entry at most as long as the root id that covers one of its values covers
    all of them. *)
Lemma short_covers {L} (c : gcfg) (n v u : N) (e : tentry L) : te_len e <= gc_root c n ->
  covers (gw c) (root_id c n) v -> covers (gw c) (root_id c n) u -> covers (gw c) (eid e) v -> covers (gw c) (eid e) u.
Proof. intros Hl Hv Hu He. by apply (covers_finer (gw c) (eid e) (root_id c n) v u). Qed.

Lemma chosen_open {L} (c : gcfg) (n : N) (m : record L) v : chosen c n m v -> open_id c n m v.
Proof. intros (b & <- & _ & H & _). apply H. apply covers_self. Qed.

(** The cases in which the root id is the id of the whole tree. *)
Lemma claim_free_spec {L} (lstr : L -> string) (c : gcfg) (n : N) (m : record L) (g : gtree L) l :
  c ∈ g_packages_16_32 -> g_hist any_op c n m g -> g_room c m (GClaimFree l) ->
  (forall v, covers (gw c) (root_id c n) v <-> v < 2 ^ n) ->
  (forall q e, m !! q = Some e -> ~ forall v, v < 2 ^ n -> covers (gw c) (eid e) v) ->
  exists g' r, g_step lstr c g (GClaimFree l) = Ok (g', r) /\
    ((exists v, v < 2 ^ n /\ ~ covered c m v /\ r = GEntry (TEntry v (gw c) l) /\
       g_get g' (MyId v (gw c)) = Ok (TEntry v (gw c) l)) \/
     (r = GErr ENoFreeId /\ g' = g /\ forall v, v < 2 ^ n -> covered c m v)).
Proof.
  intros Hc Hh Hr Hroot Hno. pose proof (hist_G c Hc _ n m g Hh) as HG.
  assert (Ho : gop_ok c (GClaimFree l)) by done.
  assert (Hcov : forall v, v < 2 ^ n -> covered c m v ->
    exists q e, m !! q = Some e /\ gc_root c n < te_len e /\ covers (gw c) (eid e) v).
  { intros v Hv (q & e & Hq & He). exists q, e. split; [done|]. split; [|done].
    destruct (N.lt_ge_cases (gc_root c n) (te_len e)) as [H|H]; [done|].
    exfalso. apply (Hno q e Hq). intros u Hu. apply (short_covers c n v u e); [done|by apply Hroot..|done]. }
  destruct (step_G lstr c Hc n m g (GClaimFree l) HG Ho Hr) as (g' & r & Hs & Hret & _).
  exists g', r. split; [done|]. cbn [returns] in Hret. destruct Hret as [(v & Hv & Hrv)|[Hnone ->]].
  - left. exists v. pose proof (chosen_open c n m v Hv) as (Hvw & Hvr & Hvo). apply Hroot in Hvr as Hvn.
    destruct (N.leb_spec (2 ^ n) v); [lia|]. split; [done|]. split; [|split; [done|]].
    + intros Hcv. by apply Hvo, Hcov.
    + subst r. pose proof (hist_more lstr c n m g _ g' _ Hh Ho Hr Hs) as Hh'.
      assert (Hx : gid_ok c (MyId v (gw c))) by (by split).
      rewrite (C37_get_partial_pf L any_op c n _ g' _ Hc Hh' Hx). cbn [after].
      unfold eid. cbn [te_id te_len]. pose proof (lookup_new c m (MyId v (gw c)) l) as E. cbn [i_id i_len] in E. by rewrite E.
  - right. split; [done|]. split.
    + cbn [g_step] in Hs. destruct (g_claim_free c g l) as [[g1 e]| |]; [done|by injection Hs|done].
    + intros v Hv. assert (Hvw : v < 2 ^ gw c).
      { eapply N.lt_le_trans; [exact Hv|]. apply N.pow_le_mono_r; [done|apply HG]. }
      destruct (find_free_spec c Hc n m g HG) as [(u & Hu & _)|[_ _]].
      { exfalso. by eapply Hnone, chosen_open. }
      assert (Hdec : forall (es : list (tentry L)),
        (exists e, e ∈ es /\ covers (gw c) (eid e) v) \/ ~ (exists e, e ∈ es /\ covers (gw c) (eid e) v)).
      { induction es as [|e es IH].
        - right. intros (e & He & _). by apply elem_of_nil in He.
        - destruct (N.eq_dec (v / 2 ^ (gw c - i_len (eid e))) (i_id (eid e) / 2 ^ (gw c - i_len (eid e)))) as [Hd|Hd].
          + left. exists e. split; [left|done].
          + destruct IH as [(e' & He' & Hv')|IH].
            * left. exists e'. split; [by right|done].
            * right. intros (e' & He' & Hv'). apply elem_of_cons in He' as [->|He']; [done|]. apply IH. by exists e'. }
      destruct (GInv_entries c n m g HG) as (es & _ & _ & He).
      destruct (Hdec es) as [(e & Hein & Hev)|Hn].
      * exists (prefix (gw c) (eid e)), e. split; [by apply He|done].
      * exfalso. apply (Hnone v). split; [done|]. split; [by apply Hroot|].
        intros (q & e & Hq & _ & Hev). apply Hn. exists e. split; [|done].
        destruct (gi_ok _ _ _ _ HG _ _ Hq) as [Hqe _]. rewrite Hqe in Hq. by apply He.
Qed.

Lemma root_block (w k v : N) : k <= w -> (covers w (MyId 0 k) v <-> v < 2 ^ (w - k)).
Proof.
  intros Hk. unfold covers. cbn [i_len i_id]. rewrite N.div_0_l by (apply N.pow_nonzero; lia).
  rewrite N.div_small_iff by (apply N.pow_nonzero; lia). done.
Qed.

(** tree16, all lengths, all histories, unless one entry covers all ids of the
    tree. *)
Lemma C45_claim_free_partial_pf : forall (L : Type) (lstr : L -> string) (n : N) (m : record L) (g : gtree L) l,
  g_hist any_op cfg_tree16 n m g ->
  (forall q e, m !! q = Some e -> ~ forall v, v < 2 ^ n -> covers 16 (eid e) v) ->
  exists g' r, g_step lstr cfg_tree16 g (GClaimFree l) = Ok (g', r) /\
    ((exists v, v < 2 ^ n /\ ~ covered cfg_tree16 m v /\ r = GEntry (TEntry v 16 l) /\
       g_get g' (MyId v 16) = Ok (TEntry v 16 l)) \/
     (r = GErr ENoFreeId /\ g' = g /\ forall v, v < 2 ^ n -> covered cfg_tree16 m v)).
Proof.
  intros L lstr n m g l Hh Hno. assert (Hc : cfg_tree16 ∈ g_packages_16_32) by left.
  pose proof (gi_n _ _ _ _ (hist_G cfg_tree16 Hc _ n m g Hh)) as Hn. change (gw cfg_tree16) with 16 in Hn.
  apply (claim_free_spec lstr cfg_tree16 n m g l Hc Hh); [by left| |done].
  intros v. unfold root_id. cbn [cfg_tree16 gc_root]. change (gw cfg_tree16) with 16.
  assert (E : usub 8 16 n = 16 - n).
  { unfold usub, uwrap. change (2 ^ 8) with 256. rewrite (N.mod_small n) by lia.
    replace (16 + 256 - n) with ((16 - n) + 1 * 256) by lia. rewrite N.mod_add by done. rewrite N.mod_small; lia. }
  change (gw (GCfg cfg_id16 (fun len => usub 8 16 len))) with 16.
  rewrite E, root_block by lia. replace (16 - (16 - n)) with n by lia. done.
Qed.

(** An entry that covers the whole tree is overlooked. *)
Lemma C45_covered_id_refuted_pf :
  exists g rs g' rs',
    (do g <- g_new (L := N) cfg_tree16 4; g_run dec cfg_tree16 g [GClaimID (MyId 0 12) 1]) = Ok (g, rs) /\
    (forall v, v < 2 ^ 4 -> covers 16 (MyId 0 12) v) /\
    g_run dec cfg_tree16 g [GClaimFree 2] = Ok (g', rs') /\ rs' = [GEntry (TEntry 0 16 2)].
Proof.
  do 4 eexists. split; [vm_compute; reflexivity|].
  split; [|split; vm_compute; reflexivity].
  intros v Hv. apply (root_block 16 12); [lia|]. done.
Qed.

(** With length 0 every call of ClaimFree returns id 0. *)
Lemma C45_length_0_refuted_pf : forall (L : Type) (lstr : L -> string) (m : record L) (g : gtree L) l,
  g_hist any_op cfg_tree16 0 m g ->
  exists g', g_step lstr cfg_tree16 g (GClaimFree l) = Ok (g', GEntry (TEntry 0 16 l)).
Proof.
  intros L lstr m g l Hh. assert (Hc : cfg_tree16 ∈ g_packages_16_32) by left.
  pose proof (hist_G cfg_tree16 Hc _ 0 m g Hh) as HG.
  assert (Hr : g_room cfg_tree16 m (GClaimFree l)) by (by left).
  assert (Ho : gop_ok cfg_tree16 (GClaimFree l)) by done.
  destruct (step_G lstr cfg_tree16 Hc 0 m g (GClaimFree l) HG Ho Hr) as (g' & r & Hs & Hret & _).
  exists g'. rewrite Hs. do 2 f_equal. cbn [returns] in Hret.
  assert (Hroot : forall v, covers 16 (root_id cfg_tree16 0) v <-> v = 0).
  { intros v. change (root_id cfg_tree16 0) with (MyId 0 16). rewrite root_block by done.
    change (2 ^ (16 - 16)) with 1. lia. }
  destruct Hret as [(v & Hv & ->)|[Hnone _]].
  - apply chosen_open in Hv as (_ & Hv & _). apply (proj1 (Hroot v)) in Hv. by subst v.
  - exfalso. apply (Hnone 0). split; [done|]. split; [by apply Hroot|].
    intros (q & e & Hq & Hl & _). destruct (gi_ok _ _ _ _ HG _ _ Hq) as [_ [_ Hle]].
    change (gc_root cfg_tree16 0) with 16 in Hl. change (gw cfg_tree16) with 16 in Hle. cbn in Hle. lia.
Qed.

(* ------------------------------------------------------------------ C46 *)
(** tree32 of length 16: as tree16. *)
Lemma C46_claim_free_length_16_partial_pf : forall (L : Type) (lstr : L -> string) (m : record L) (g : gtree L) l,
  g_hist any_op cfg_tree32 16 m g -> g_room cfg_tree32 m (GClaimFree l) ->
  (forall q e, m !! q = Some e -> ~ forall v, v < 2 ^ 16 -> covers 32 (eid e) v) ->
  exists g' r, g_step lstr cfg_tree32 g (GClaimFree l) = Ok (g', r) /\
    ((exists v, v < 2 ^ 16 /\ ~ covered cfg_tree32 m v /\ r = GEntry (TEntry v 32 l) /\
       g_get g' (MyId v 32) = Ok (TEntry v 32 l)) \/
     (r = GErr ENoFreeId /\ g' = g /\ forall v, v < 2 ^ 16 -> covered cfg_tree32 m v)).
Proof.
  intros L lstr m g l Hh Hr Hno. assert (Hc : cfg_tree32 ∈ g_packages_16_32) by (right; left).
  apply (claim_free_spec lstr cfg_tree32 16 m g l Hc Hh Hr); [|done].
  intros v. change (gw cfg_tree32) with 32. unfold root_id. cbn [cfg_tree32 gc_root].
  rewrite root_block by lia. done.
Qed.

(** Any length n: the ids handed out are below 2^(32-n), not only below 2^n. *)
Lemma C46_only_low_ids_pf : forall (L : Type) (lstr : L -> string) (n : N) (m : record L) (g : gtree L) l g' e,
  g_hist any_op cfg_tree32 n m g -> g_room cfg_tree32 m (GClaimFree l) ->
  g_step lstr cfg_tree32 g (GClaimFree l) = Ok (g', GEntry e) ->
  te_id e < 2 ^ (32 - n) /\ te_id e < 2 ^ n /\ te_len e = 32 /\ te_labels e = l /\
  (forall q e', m !! q = Some e' -> n < te_len e' -> ~ covers 32 (eid e') (te_id e)).
Proof.
  intros L lstr n m g l g' e Hh Hr Hs. assert (Hc : cfg_tree32 ∈ g_packages_16_32) by (right; left).
  pose proof (hist_G cfg_tree32 Hc _ n m g Hh) as HG. pose proof (gi_n _ _ _ _ HG) as Hn.
  assert (Ho : gop_ok cfg_tree32 (GClaimFree l)) by done.
  destruct (step_G lstr cfg_tree32 Hc n m g (GClaimFree l) HG Ho Hr) as (g1 & r & Hs' & Hret & _).
  rewrite Hs in Hs'. injection Hs' as <- <-. cbn [returns] in Hret.
  destruct Hret as [(v & Hv & Hve)|[_ ?]]; [|done]. destruct (N.leb_spec (2 ^ n) v); [done|]. injection Hve as ->.
  cbn [te_id te_len te_labels]. apply chosen_open in Hv as (_ & Hv & Hvo).
  change (gw cfg_tree32) with 32 in *. unfold root_id in Hv. cbn [cfg_tree32 gc_root] in Hv.
  apply root_block in Hv; [|done]. split; [done|]. split; [done|]. split; [done|]. split; [done|].
  intros q e' Hq Hl Hcv. apply Hvo. by exists q, e'.
Qed.

(** Length 31 (ids up to 2^31 - 1): the third call fails although two ids are
    claimed.  Length 32: the second call returns the id of the first. *)
Lemma C46_claim_free_refuted_pf :
  (exists g, (do g <- g_new (L := N) cfg_tree32 31;
     g_run dec cfg_tree32 g [GClaimFree 1; GClaimFree 2; GClaimFree 3]) =
       Ok (g, [GEntry (TEntry 0 32 1); GEntry (TEntry 1 32 2); GErr ENoFreeId])) /\
  (exists g, (do g <- g_new (L := N) cfg_tree32 32; g_run dec cfg_tree32 g [GClaimFree 1; GClaimFree 2]) =
       Ok (g, [GEntry (TEntry 0 32 1); GEntry (TEntry 0 32 2)])).
Proof. split; eexists; vm_compute; reflexivity. Qed.

(** Whether a value is covered by an entry the record holds, of those with a
    decidable property. *)
Lemma taken_dec {L} (c : gcfg) (n : N) (m : record L) (g : gtree L) (k v : N) :
  c ∈ g_packages_16_32 -> GInv c n m g ->
  (exists q e, m !! q = Some e /\ k < te_len e /\ covers (gw c) (eid e) v) \/
  ~ (exists q e, m !! q = Some e /\ k < te_len e /\ covers (gw c) (eid e) v).
Proof.
  intros Hc HG.
  assert (Hdec : forall (es : list (tentry L)),
    (exists e, e ∈ es /\ k < te_len e /\ covers (gw c) (eid e) v) \/
    ~ (exists e, e ∈ es /\ k < te_len e /\ covers (gw c) (eid e) v)).
  { induction es as [|e es IH].
    - right. intros (e & He & _). by apply elem_of_nil in He.
    - destruct IH as [(e' & He' & Hv')|IH]; [left; exists e'; split; [by right|done]|].
      destruct (N.lt_ge_cases k (te_len e)) as [Hk|Hk].
      + destruct (N.eq_dec (v / 2 ^ (gw c - i_len (eid e))) (i_id (eid e) / 2 ^ (gw c - i_len (eid e)))) as [Hd|Hd].
        * left. exists e. split; [left|done].
        * right. intros (e' & He' & Hl' & Hv'). apply elem_of_cons in He' as [->|He']; [done|]. apply IH. by exists e'.
      + right. intros (e' & He' & Hl' & Hv'). apply elem_of_cons in He' as [->|He']; [lia|]. apply IH. by exists e'. }
  destruct (GInv_entries c n m g HG) as (es & _ & _ & He). destruct (Hdec es) as [(e & Hein & Hev)|Hn].
  - left. exists (prefix (gw c) (eid e)), e. split; [by apply He|done].
  - right. intros (q & e & Hq & Hev). apply Hn. exists e. split; [|done].
    destruct (gi_ok _ _ _ _ HG _ _ Hq) as [Hqe _]. rewrite Hqe in Hq. by apply He.
Qed.

(** Every value of a set lies in a maximal block of it. *)
Lemma max_block (w : N) (P : N -> Prop) (u : N) : u < 2 ^ w -> P u ->
  ~ ~ exists q, canonical w q /\ covers w q u /\ (forall v, covers w q v -> P v) /\ maximal_in w P q.
Proof.
  intros Hu HP.
  assert (Hgen : forall k : nat, N.of_nat k <= w -> (forall v, covers w (MyId u (N.of_nat k)) v -> P v) ->
    ~ ~ exists q, canonical w q /\ covers w q u /\ (forall v, covers w q v -> P v) /\ maximal_in w P q).
  { intros k. induction (lt_wf k) as [k _ IH]. intros Hk Hb Hno.
    assert (Hmin : forall j, j < N.of_nat k -> ~ forall v, covers w (MyId u j) v -> P v).
    { intros j Hj Hjb. apply (IH (N.to_nat j)); [lia|lia| |done]. by rewrite N2Nat.id. }
    apply Hno. set (h := 2 ^ (w - N.of_nat k)). assert (Hh : h <> 0) by (apply N.pow_nonzero; lia).
    assert (Ediv : u / h * h / h = u / h) by (apply N.div_mul; done).
    assert (Ecov : forall v, covers w (MyId (u / h * h) (N.of_nat k)) v <-> covers w (MyId u (N.of_nat k)) v).
    { intros v. unfold covers. cbn [i_id i_len]. fold h. by rewrite Ediv. }
    exists (MyId (u / h * h) (N.of_nat k)). split; [|split; [|split]].
    - unfold canonical. cbn [i_id i_len]. fold h. split; [done|]. split; [|by apply N.mod_mul].
      eapply N.le_lt_trans; [|exact Hu]. rewrite N.mul_comm. by apply N.mul_div_le.
    - by apply Ecov.
    - intros v Hv. by apply Hb, Ecov.
    - intros y Hy Hcy HPy. cbn [i_len i_id] in *. destruct (N.le_gt_cases (N.of_nat k) (i_len y)) as [H|H]; [done|].
      exfalso. apply (Hmin (i_len y) H). intros v Hv. apply HPy.
      assert (Hyu : covers w y u).
      { apply (covers_finer w y (MyId u (N.of_nat k)) (u / h * h) u); [cbn; lia| |done|done].
        apply Ecov. done. }
      unfold covers in Hv, Hyu |- *. cbn [i_id i_len] in Hv. congruence. }
  apply (Hgen (N.to_nat w)); [lia|]. rewrite N2Nat.id. intros v Hv. unfold covers in Hv. cbn [i_len i_id] in Hv.
  rewrite N.sub_diag, !N.div_1_r in Hv. by subst v.
Qed.

(** ClaimFree when the values of the root id are ids of the tree: exactly those
    that no entry longer than the root id covers are handed out. *)
Lemma claim_free_exact {L} (lstr : L -> string) (c : gcfg) (n k : N) (m : record L) (g : gtree L) l :
  c ∈ g_packages_16_32 -> g_hist any_op c n m g -> g_room c m (GClaimFree l) ->
  (forall v, covers (gw c) (root_id c n) v <-> v < 2 ^ k) -> k <= n ->
  exists g' r, g_step lstr c g (GClaimFree l) = Ok (g', r) /\
    ((exists v, v < 2 ^ k /\ r = GEntry (TEntry v (gw c) l) /\ g_get g' (MyId v (gw c)) = Ok (TEntry v (gw c) l) /\
       forall q e, m !! q = Some e -> gc_root c n < te_len e -> ~ covers (gw c) (eid e) v) \/
     (r = GErr ENoFreeId /\ g' = g /\
       forall v, v < 2 ^ k -> exists q e, m !! q = Some e /\ gc_root c n < te_len e /\ covers (gw c) (eid e) v)).
Proof.
  intros Hc Hh Hr Hroot Hkn. pose proof (hist_G c Hc _ n m g Hh) as HG. pose proof (gi_n _ _ _ _ HG) as Hn.
  assert (Ho : gop_ok c (GClaimFree l)) by done.
  destruct (step_G lstr c Hc n m g (GClaimFree l) HG Ho Hr) as (g' & r & Hs & Hret & _).
  assert (Hpow : 2 ^ k <= 2 ^ n) by (apply N.pow_le_mono_r; lia).
  assert (Hpw : 2 ^ n <= 2 ^ gw c) by (apply N.pow_le_mono_r; [done|exact Hn]).
  exists g', r. split; [done|]. cbn [returns] in Hret.
  destruct Hret as [(v & Hv & Hrv)|[Hnone ->]].
  - left. exists v. pose proof (chosen_open c n m v Hv) as (Hvw & Hvr & Hvo). apply Hroot in Hvr.
    destruct (N.leb_spec (2 ^ n) v); [lia|]. split; [done|]. split; [done|]. split.
    + subst r. pose proof (hist_more lstr c n m g _ g' _ Hh Ho Hr Hs) as Hh'.
      assert (Hx : gid_ok c (MyId v (gw c))) by (by split).
      rewrite (C37_get_partial_pf L any_op c n _ g' _ Hc Hh' Hx). cbn [after].
      unfold eid. cbn [te_id te_len]. pose proof (lookup_new c m (MyId v (gw c)) l) as E. cbn [i_id i_len] in E. by rewrite E.
    + intros q e Hq Hl Hcv. apply Hvo. by exists q, e.
  - right. split; [done|]. split.
    + cbn [g_step] in Hs. destruct (g_claim_free c g l) as [[g1 e]| |]; [done|by injection Hs|done].
    + intros v Hv. destruct (taken_dec c n m g (gc_root c n) v Hc HG) as [Ht|Hnt]; [done|].
      exfalso. apply (Hnone v). split; [lia|split; [by apply Hroot|done]].
Qed.

(** tree16, every length and history. *)
Lemma C45_claim_free_exact_pf : forall (L : Type) (lstr : L -> string) (n : N) (m : record L) (g : gtree L) l,
  g_hist any_op cfg_tree16 n m g ->
  exists g' r, g_step lstr cfg_tree16 g (GClaimFree l) = Ok (g', r) /\
    ((exists v, v < 2 ^ n /\ r = GEntry (TEntry v 16 l) /\ g_get g' (MyId v 16) = Ok (TEntry v 16 l) /\
       forall q e, m !! q = Some e -> 16 - n < te_len e -> ~ covers 16 (eid e) v) \/
     (r = GErr ENoFreeId /\ g' = g /\
       forall v, v < 2 ^ n -> exists q e, m !! q = Some e /\ 16 - n < te_len e /\ covers 16 (eid e) v)).
Proof.
  intros L lstr n m g l Hh. assert (Hc : cfg_tree16 ∈ g_packages_16_32) by left.
  pose proof (gi_n _ _ _ _ (hist_G cfg_tree16 Hc _ n m g Hh)) as Hn. change (gw cfg_tree16) with 16 in Hn.
  assert (E : gc_root cfg_tree16 n = 16 - n).
  { cbn [cfg_tree16 gc_root]. unfold usub, uwrap. change (2 ^ 8) with 256. rewrite (N.mod_small n) by lia.
    replace (16 + 256 - n) with ((16 - n) + 1 * 256) by lia. rewrite N.mod_add by done. rewrite N.mod_small; lia. }
  rewrite <- E. apply (claim_free_exact lstr cfg_tree16 n n m g l Hc Hh); [by left| |done].
  intros v. unfold root_id. rewrite E. change (gw cfg_tree16) with 16.
  rewrite root_block by lia. replace (16 - (16 - n)) with n by lia. done.
Qed.

(** tree32, lengths from 16 on: exactly the ids below 2^(32-n) that no entry longer
    than n covers are handed out. *)
Lemma C46_longer_trees_exact_pf : forall (L : Type) (lstr : L -> string) (n : N) (m : record L) (g : gtree L) l,
  16 <= n -> g_hist any_op cfg_tree32 n m g -> g_room cfg_tree32 m (GClaimFree l) ->
  exists g' r, g_step lstr cfg_tree32 g (GClaimFree l) = Ok (g', r) /\
    ((exists v, v < 2 ^ (32 - n) /\ r = GEntry (TEntry v 32 l) /\ g_get g' (MyId v 32) = Ok (TEntry v 32 l) /\
       forall q e, m !! q = Some e -> n < te_len e -> ~ covers 32 (eid e) v) \/
     (r = GErr ENoFreeId /\ g' = g /\
       forall v, v < 2 ^ (32 - n) -> exists q e, m !! q = Some e /\ n < te_len e /\ covers 32 (eid e) v)).
Proof.
  intros L lstr n m g l Hn16 Hh Hr. assert (Hc : cfg_tree32 ∈ g_packages_16_32) by (right; left).
  pose proof (gi_n _ _ _ _ (hist_G cfg_tree32 Hc _ n m g Hh)) as Hn. change (gw cfg_tree32) with 32 in Hn.
  apply (claim_free_exact lstr cfg_tree32 n (32 - n) m g l Hc Hh Hr); [|lia].
  intros v. unfold root_id. cbn [cfg_tree32 gc_root]. by apply root_block.
Qed.

(** An aligned block that contains a value below 2^n and one that is not below
    it contains all values below. *)
Lemma block_over (w n : N) (x : id) (u v : N) : n <= w -> u < 2 ^ n -> 2 ^ n <= v -> covers w x u -> covers w x v ->
  forall z, z < 2 ^ n -> covers w x z.
Proof.
  intros Hn Hu Hv Hxu Hxv z Hz.
  assert (Hlow : forall y, covers w (MyId 0 (w - n)) y <-> y < 2 ^ n).
  { intros y. rewrite root_block by lia. by replace (w - (w - n)) with n by lia. }
  destruct (N.le_gt_cases (i_len x) (w - n)) as [H|H].
  - apply (covers_finer w x (MyId 0 (w - n)) u z); [done|by apply Hlow..|done].
  - exfalso. assert (v < 2 ^ n); [|lia]. apply Hlow.
    apply (covers_finer w (MyId 0 (w - n)) x u v); [cbn [i_len]; lia|done|done|by apply Hlow].
Qed.

(** Lengths below 16, without ClaimRange: as tree16, but the error is that of an
    id above the size. *)
Lemma C46_shorter_trees_partial_pf : forall (L : Type) (lstr : L -> string) (n : N) (m : record L) (g : gtree L) l,
  n < 16 -> g_hist no_range cfg_tree32 n m g -> g_room cfg_tree32 m (GClaimFree l) ->
  (forall q e, m !! q = Some e -> ~ forall v, v < 2 ^ n -> covers 32 (eid e) v) ->
  exists g' r, g_step lstr cfg_tree32 g (GClaimFree l) = Ok (g', r) /\
    ((exists v, v < 2 ^ n /\ ~ covered cfg_tree32 m v /\ r = GEntry (TEntry v 32 l) /\
       g_get g' (MyId v 32) = Ok (TEntry v 32 l)) \/
     (r = GErr EMaxId /\ g' = g /\ forall v, v < 2 ^ n -> covered cfg_tree32 m v)).
Proof.
  intros L lstr n m g l Hn16 Hh Hr Hno. assert (Hc : cfg_tree32 ∈ g_packages_16_32) by (right; left).
  pose proof (hist_G cfg_tree32 Hc _ n m g Hh) as HG.
  assert (Ho : gop_ok cfg_tree32 (GClaimFree l)) by done.
  destruct (step_G lstr cfg_tree32 Hc n m g (GClaimFree l) HG Ho Hr) as (g' & r & Hs & Hret & _).
  assert (Hpow : 2 ^ n < 2 ^ (32 - n)) by (apply N.pow_lt_mono_r; lia).
  assert (Hpow32 : 2 ^ (32 - n) <= 2 ^ 32) by (apply N.pow_le_mono_r; lia).
  assert (Hroot : forall v, covers 32 (root_id cfg_tree32 n) v <-> v < 2 ^ (32 - n)).
  { intros v. unfold root_id. cbn [cfg_tree32 gc_root]. apply root_block. lia. }
  assert (Hin : forall q e, m !! q = Some e -> te_id e < 2 ^ n).
  { by apply (ids_inside cfg_tree32 n m g). }
  (* no value outside is taken, unless all inside are *)
  assert (Hout : forall q e u v, m !! q = Some e -> 2 ^ n <= v -> covers 32 (eid e) v -> u < 2 ^ n -> covers 32 (eid e) u).
  { intros q e u v Hq Hv Hev Hu. apply (block_over 32 n (eid e) (te_id e) v); [lia|by eapply Hin|done|done|done|done]. }
  assert (Htk : forall v, v < 2 ^ n -> covered cfg_tree32 m v ->
    exists q e, m !! q = Some e /\ n < te_len e /\ covers 32 (eid e) v).
  { intros v Hv (q & e & Hq & He). exists q, e. split; [done|]. split; [|done].
    destruct (N.lt_ge_cases n (te_len e)) as [H|H]; [done|].
    exfalso. apply (Hno q e Hq). intros u Hu. apply (short_covers cfg_tree32 n v u e); [done|apply Hroot; lia..|done]. }
  exists g', r. split; [done|]. cbn [returns] in Hret. change (gw cfg_tree32) with 32 in Hret.
  destruct Hret as [(v & Hv & Hrv)|[Hnone ->]].
  - pose proof (chosen_open cfg_tree32 n m v Hv) as (Hvw & Hvr & Hvo).
    change (gw cfg_tree32) with 32 in *. apply Hroot in Hvr.
    destruct (N.leb_spec (2 ^ n) v) as [Hbig|Hsmall].
    + right. split; [done|]. split.
      { subst r. cbn [g_step] in Hs. destruct (g_claim_free cfg_tree32 g l) as [[g1 e]| |]; [done|by injection Hs|done]. }
      intros u Hu. destruct (taken_dec cfg_tree32 n m g n u Hc HG) as [(q & e & Hq & _ & He)|Hnt]; [by exists q, e|].
      exfalso. change (gw cfg_tree32) with 32 in Hnt.
      assert (Hou : open_id cfg_tree32 n m u).
      { split; [change (gw cfg_tree32) with 32; lia|]. split; [apply Hroot; lia|done]. }
      assert (Hopen : forall z, 2 ^ n <= z < 2 ^ (32 - n) -> open_id cfg_tree32 n m z).
      { intros z Hz. split; [change (gw cfg_tree32) with 32; lia|]. split; [apply Hroot; lia|].
        intros (q & e & Hq & Hl & He). apply Hnt. exists q, e. split; [done|]. split; [done|].
        by apply (Hout q e u z); [done|lia|..]. }
      destruct Hv as (b & <- & Hcb & Hb & Hmax & Hleast). change (gw cfg_tree32) with 32 in *.
      apply (max_block 32 (open_id cfg_tree32 n m) u); [lia|done|]. intros (q & Hcq & Hqu & Hq & Hqm).
      pose proof (Hleast q Hcq Hq Hqm) as Hql.
      assert (Hlow : forall y, covers 32 (MyId 0 (32 - n)) y <-> y < 2 ^ n).
      { intros y. rewrite root_block by lia. by replace (32 - (32 - n)) with n by lia. }
      destruct (N.le_gt_cases (i_len q) (32 - n)) as [Hle|Hgt].
      * (* all values below 2^n are open, hence the whole root block *)
        assert (Hall : forall z, z < 2 ^ (32 - n) -> open_id cfg_tree32 n m z).
        { intros z Hz. destruct (N.lt_ge_cases z (2 ^ n)) as [Hzl|Hzg]; [|by apply Hopen].
          apply Hq. apply (covers_finer 32 q (MyId 0 (32 - n)) u z); [done|by apply Hlow..|done]. }
        assert (Hbn : i_len b <= n).
        { apply (Hmax (root_id cfg_tree32 n)); [change (n <= 32); lia|by apply Hroot|]. intros z Hz. by apply Hall, Hroot. }
        assert (covers 32 b 0); [|].
        { apply (covers_finer 32 b (root_id cfg_tree32 n) (i_id b) 0); [done|by apply Hroot|apply Hroot; lia|done]. }
        apply covers_canonical in H; [|done]. lia.
      * (* the block of 2^n values around v is open *)
        assert (Hbl : i_len b <= 32 - n); [|lia].
        apply (Hmax (MyId (i_id b) (32 - n))); [cbn [i_len]; lia|done|]. intros z Hz. apply Hopen.
        assert (Hzr : z < 2 ^ (32 - n)).
        { apply Hroot. apply (covers_finer 32 (root_id cfg_tree32 n) (MyId (i_id b) (32 - n)) (i_id b) z);
            [change (n <= 32 - n); lia|done|done|by apply Hroot]. }
        split; [|done]. destruct (N.le_gt_cases (2 ^ n) z) as [H|H]; [done|]. exfalso.
        assert (i_id b < 2 ^ n); [|lia]. apply Hlow. apply Hlow in H. unfold covers in Hz, H |- *. cbn [i_len i_id] in *. congruence.
    + left. exists v. split; [done|]. split; [|split; [done|]].
      * intros Hcv. by apply Hvo, Htk.
      * subst r. assert (Hh' : g_hist any_op cfg_tree32 n m g) by (by eapply hist_weaken).
        pose proof (hist_more lstr cfg_tree32 n m g _ g' _ Hh' Ho Hr Hs) as Hh2.
        assert (Hx : gid_ok cfg_tree32 (MyId v 32)) by (by split).
        rewrite (C37_get_partial_pf L any_op cfg_tree32 n _ g' _ Hc Hh2 Hx). cbn [after].
        unfold eid. cbn [te_id te_len]. pose proof (lookup_new cfg_tree32 m (MyId v 32) l) as E. cbn [i_id i_len] in E. by rewrite E.
  - exfalso. assert (Htop : 2 ^ n <= 2 ^ (32 - n) - 1 < 2 ^ (32 - n)) by lia.
    apply (Hnone (2 ^ (32 - n) - 1)). split; [change (gw cfg_tree32) with 32; lia|]. split; [apply Hroot; lia|].
    intros (q & e & Hq & _ & He). apply (Hno q e Hq). intros u Hu. apply (Hout q e u (2 ^ (32 - n) - 1)); [done|lia|done|done].
Qed.

(** Every length from 17 to 31: two claims, neither of which covers the id
    2^n - 1, and ClaimFree fails. *)
Lemma C46_longer_trees_refuted_pf : forall n, 16 < n < 32 ->
  (exists g, (do g <- g_new (L := N) cfg_tree32 n;
     g_run dec cfg_tree32 g [GClaimID (MyId 0 (n + 1)) 1; GClaimID (MyId (2 ^ (31 - n)) (n + 1)) 2; GClaimFree 3]) =
       Ok (g, [GDone; GDone; GErr ENoFreeId])) /\
  ~ covers 32 (MyId 0 (n + 1)) (2 ^ n - 1) /\ ~ covers 32 (MyId (2 ^ (31 - n)) (n + 1)) (2 ^ n - 1).
Proof.
  intros n Hn. replace n with (17 + N.of_nat (N.to_nat (n - 17))) by lia.
  assert (Hk : (N.to_nat (n - 17) < 15)%nat) by lia. generalize dependent (N.to_nat (n - 17)). clear. intros k Hk.
  do 15 (destruct k as [|k]; [split; [eexists; vm_compute; reflexivity|split; vm_compute; discriminate]|]). lia.
Qed.

(** Lengths below 16: after ClaimRange of ids above the size ClaimFree fails
    although no id of the tree is claimed. *)
Lemma C46_range_above_refuted_pf :
  exists g, (do g <- g_new (L := N) cfg_tree32 8;
     g_run dec cfg_tree32 g [GClaimRange "1000-1000" 1; GClaimFree 2]) = Ok (g, [GDone; GErr EMaxId]).
Proof. eexists. vm_compute. reflexivity. Qed.

(* ------------------------------------------------------------------ C47 *)
Lemma range_of_id_64 v : range_of_id cfg_id64 (MyId v 64) = Ok None.
Proof. reflexivity. Qed.

Lemma remove_free_64 s o : remove_free_prefix cfg_id64 s 64 <> Ok (Some o).
Proof.
  unfold remove_free_prefix. destruct (best_fit_set _ _ _ _) as [[b|]| |]; cbn [rbind]; [|done..].
  destruct (add_set _ _ _) as [bl| |]; cbn [rbind]; [|done..]. unfold remove_id.
  change (uwrap (id_w cfg_id64) (i_id b)) with (uwrap 64 (i_id b)). rewrite range_of_id_64. done.
Qed.

(** No call of ClaimFree on any tree64, in any state, succeeds. *)
Lemma C47_claim_free_refuted_pf : forall (L : Type) (lstr : L -> string) (g : gtree L) l g' e,
  g_step lstr cfg_tree64 g (GClaimFree l) <> Ok (g', GEntry e).
Proof.
  intros L lstr g l g' e. cbn [g_step]. destruct (g_claim_free cfg_tree64 g l) as [[g1 e1]| |] eqn:H; [|done..].
  exfalso. unfold g_claim_free in H. destruct (g_find_free cfg_tree64 g) as [v| |] eqn:Hf; cbn [rbind] in H; [|done..].
  clear H. unfold g_find_free in Hf. change (gc_id cfg_tree64) with cfg_id64 in Hf.
  destruct (add_id _ _ _) as [b| |]; cbn [rbind] in Hf; [|done..].
  destruct (g_children _ _ _) as [es| |]; cbn [rbind] in Hf; [|done..].
  destruct (remove_all _ _ _) as [b'| |]; cbn [rbind] in Hf; [|done..].
  destruct (ip_set _ _) as [[b1 [s errs]]| |]; cbn [rbind fst snd] in Hf; [|done..].
  destruct errs; [|done]. change (id_w cfg_id64) with 64 in Hf.
  destruct (remove_free_prefix cfg_id64 s 64) as [[o|]| |] eqn:Hr; cbn [rbind] in Hf; [|done..].
  by apply remove_free_64 in Hr.
Qed.

(** On a new tree64 of any length it panics. *)
Lemma C47_claim_free_panics_refuted_pf : forall (L : Type) (lstr : L -> string) (n : N) l,
  n <= 64 -> exists g : gtree L, g_new cfg_tree64 n = Ok g /\ g_step lstr cfg_tree64 g (GClaimFree l) = Panic.
Proof.
  intros L lstr n l Hn.
  exists (GTree (tree_zero cfg_id64) (usub 64 (ushl 64 1 n) 1) n). split.
  { unfold g_new. change (id_w (gc_id cfg_tree64)) with 64. by destruct (N.ltb_spec 64 n); [lia|]. }
  rewrite <- (N2Nat.id n). assert (Hk : (N.to_nat n <= 64)%nat) by lia.
  generalize dependent (N.to_nat n). clear. intros k Hk.
  do 65 (destruct k as [|k]; [vm_compute; reflexivity|]). lia.
Qed.

(* ------------------------------------------------------------------ C48 *)
(** tree64: the entries of two prefixes are stored at one place. *)
Lemma C48_shared_storage_refuted_pf :
  exists g rs,
    (do g <- g_new (L := N) cfg_tree64 64;
     g_run dec cfg_tree64 g [GClaimID (MyId 0 1) 1; GClaimID (MyId (2 ^ 63) 1) 2]) = Ok (g, rs) /\
    rs = [GDone; GDone] /\
    g_get_all g = Ok [Some (TEntry (2 ^ 63) 1 2); Some (TEntry (2 ^ 63) 1 2)].
Proof.
  do 2 eexists. split; [vm_compute; reflexivity|]. split; vm_compute; reflexivity.
Qed.

(* ------------------------------------------------------------------ C49 *)
Lemma canonical_prefix_inj w x y : canonical w x -> canonical w y -> prefix w x = prefix w y -> x = y.
Proof.
  intros (Hlx & Hx & Hmx) (Hly & Hy & Hmy) H.
  assert (Hl : i_len x = i_len y) by (apply (f_equal length) in H; rewrite !prefix_length in H; clear - H; lia).
  assert (Hxy : covers w x (i_id y)) by (by apply prefix_of_covers; [..|rewrite H]).
  destruct x as [xi xl], y as [yi yl]. cbn [i_id i_len] in *. subst yl. f_equal. unfold covers in Hxy. cbn in Hxy.
  rewrite (N.div_mod xi (2 ^ (w - xl))), (N.div_mod yi (2 ^ (w - xl))) by (apply N.pow_nonzero; lia).
  by rewrite Hmx, Hmy, Hxy.
Qed.

Lemma claim_range_gen (L : Type) (lstr : L -> string) (c : gcfg) (n : N) (m : record L) (g : gtree L) s l r ids :
  c ∈ g_packages_16_32 -> g_hist any_op c n m g -> g_room c m (GClaimRange s l) ->
  parse_range (gc_id c) s = Ok r -> range_ids (gc_id c) r = Ok ids -> Forall (canonical (gw c)) ids ->
  exists g', g_step lstr c g (GClaimRange s l) = Ok (g', GDone) /\
    (forall x, x ∈ ids -> g_get g' x = Ok (TEntry (i_id x) (i_len x) l)) /\
    (forall y, gid_ok c y -> (forall x, x ∈ ids -> prefix (gw c) x <> prefix (gw c) y) -> g_get g' y = g_get g y).
Proof.
  intros Hc Hh Hr Hp Hids Hcan. pose proof (hist_G c Hc _ n m g Hh) as HG.
  assert (Ho : gop_ok c (GClaimRange s l)) by done.
  destruct (step_G lstr c Hc n m g (GClaimRange s l) HG Ho Hr) as (g' & r' & Hs & Hret & _).
  cbn [returns] in Hret. rewrite Hp in Hret. subst r'.
  assert (Hrp : range_prefixes c s = ids) by (unfold range_prefixes; by rewrite Hp, Hids).
  pose proof (hist_more lstr c n m g (GClaimRange s l) g' _ Hh Ho Hr Hs) as Hh'.
  exists g'. split; [done|]. rewrite Forall_forall in Hcan. split.
  - intros x Hx. assert (Hgx : gid_ok c x) by (destruct (Hcan x Hx) as (? & ? & _); by split).
    rewrite (C37_get_partial_pf L any_op c n _ g' x Hc Hh' Hgx). cbn [after]. rewrite Hrp. unfold lookup_id.
    destruct (claim_all_lookup c ids l m (prefix (gw c) x)) as [(y & Hy & Hq & ->)|[Hno _]].
    + assert (y = x) as -> by (symmetry; apply (canonical_prefix_inj (gw c)); auto).
      unfold same_id. cbn. by rewrite !N.eqb_refl.
    + by destruct (Hno x Hx).
  - intros y Hy Hne. apply (C37_other_prefixes_partial_pf L lstr c n m g (GClaimRange s l) g' GDone y); try done.
    cbn [touches]. rewrite Hrp. intros (x & Hx & E). by apply (Hne x Hx).
Qed.

Lemma parsed_bounds c s a b : c ∈ g_packages_16_32 ->
  parse_range (gc_id c) s = Ok (range_from (gc_id c) a b) -> a < 2 ^ gw c /\ b < 2 ^ gw c.
Proof.
  intros Hc Hp.
  pose proof (proj1 (proj1 (C26_parse_range_pf (gc_id c) s _ (gpack_all c Hc))) Hp) as (f & t & _ & _ & _ & _ & _ & Hf & Ht & E).
  injection E as -> ->. done.
Qed.

(** tree16 and tree32: the range a-b, a <= b. *)
Lemma C49_claim_range_partial_pf : forall (L : Type) (lstr : L -> string) (c : gcfg) (n : N) (m : record L) (g : gtree L) s l a b,
  c ∈ g_packages_16_32 -> g_hist any_op c n m g -> g_room c m (GClaimRange s l) ->
  parse_range (gc_id c) s = Ok (range_from (gc_id c) a b) -> a <= b ->
  exists g' ids, g_step lstr c g (GClaimRange s l) = Ok (g', GDone) /\
    is_decomposition (gw c) ids a b /\
    (forall x, x ∈ ids -> g_get g' x = Ok (TEntry (i_id x) (i_len x) l)) /\
    (forall y, gid_ok c y -> (forall x, x ∈ ids -> prefix (gw c) x <> prefix (gw c) y) -> g_get g' y = g_get g y).
Proof.
  intros L lstr c n m g s l a b Hc Hh Hr Hp Hab. destruct (parsed_bounds c s a b Hc Hp) as [_ Hb].
  destruct (C24_ids_decomposes_range_partial_pf (gc_id c) a b (gpack c Hc) Hab Hb) as (ids & Hids & Hdec).
  destruct (claim_range_gen L lstr c n m g s l _ ids Hc Hh Hr Hp Hids (proj1 Hdec)) as (g' & Hs & H1 & H2).
  by exists g', ids.
Qed.

(** tree16 and tree32: the range a-b, b < a.  The call succeeds and claims the ids
    from [a] to the end of its half block, and those from the start of the half
    block of [b] to [b]. *)
Lemma C77_reversed_claim_range_characterised_pf : forall (L : Type) (lstr : L -> string) (c : gcfg) (n : N) (m : record L) (g : gtree L) s l a b,
  c ∈ g_packages_16_32 -> g_hist any_op c n m g -> g_room c m (GClaimRange s l) ->
  parse_range (gc_id c) s = Ok (range_from (gc_id c) a b) -> b < a ->
  exists g' (ids : list id), g_step lstr c g (GClaimRange s l) = Ok (g', GDone) /\
    (forall v, (exists x, x ∈ ids /\ covers (gw c) x v) <->
       (a <= v /\ v / half_size a b = a / half_size a b) \/
       (v <= b /\ v / half_size a b = b / half_size a b)) /\
    (forall x, x ∈ ids -> g_get g' x = Ok (TEntry (i_id x) (i_len x) l)) /\
    (forall y, gid_ok c y -> (forall x, x ∈ ids -> prefix (gw c) x <> prefix (gw c) y) -> g_get g' y = g_get g y).
Proof.
  intros L lstr c n m g s l a b Hc Hh Hr Hp Hab. destruct (parsed_bounds c s a b Hc Hp) as [Ha _].
  destruct (reversed_ids_full (gc_id c) a b (gpack c Hc) Hab Ha) as (ids & Hids & Hcan & Hv).
  destruct (claim_range_gen L lstr c n m g s l _ ids Hc Hh Hr Hp Hids Hcan) as (g' & Hs & H1 & H2).
  by exists g', ids.
Qed.

(** So it is never refused, and claims both bounds. *)
Lemma C77_reversed_claim_range_refuted_pf : forall (L : Type) (lstr : L -> string) (c : gcfg) (n : N) (m : record L) (g : gtree L) s l a b,
  c ∈ g_packages_16_32 -> g_hist any_op c n m g -> g_room c m (GClaimRange s l) ->
  parse_range (gc_id c) s = Ok (range_from (gc_id c) a b) -> b < a ->
  exists g' x y, g_step lstr c g (GClaimRange s l) = Ok (g', GDone) /\
    covers (gw c) x a /\ g_get g' x = Ok (TEntry (i_id x) (i_len x) l) /\
    covers (gw c) y b /\ g_get g' y = Ok (TEntry (i_id y) (i_len y) l).
Proof.
  intros L lstr c n m g s l a b Hc Hh Hr Hp Hab.
  destruct (C77_reversed_claim_range_characterised_pf L lstr c n m g s l a b Hc Hh Hr Hp Hab) as (g' & ids & Hs & Hv & Hg & _).
  destruct (proj2 (Hv a)) as (x & Hx & Hcx); [left; by split|].
  destruct (proj2 (Hv b)) as (y & Hy & Hcy); [right; by split|].
  exists g', x, y. split; [done|]. split; [done|]. split; [by apply Hg|]. split; [done|by apply Hg].
Qed.

(** A malformed range string is refused. *)
Lemma C49_malformed_partial_pf : forall (L : Type) (lstr : L -> string) (c : gcfg) (g : gtree L) s l,
  c ∈ g_packages -> (forall r, parse_range (gc_id c) s <> Ok r) ->
  exists e, g_step lstr c g (GClaimRange s l) = Ok (g, GErr e).
Proof.
  intros L lstr c g s l Hc Hp. cbn [g_step]. unfold g_claim_range.
  destruct (parse_range (gc_id c) s) as [r|e|] eqn:H; cbn [rbind done_or_err]; [by destruct (Hp r)|by exists e|].
  exfalso. assert (Hall : gc_id c ∈ id_packages).
  { unfold g_packages, id_packages in *. apply elem_of_cons in Hc as [->|Hc]; [left|].
    apply elem_of_cons in Hc as [->|Hc]; [right; left|]. apply elem_of_cons in Hc as [->|Hc]; [right; right; left|].
    by apply elem_of_nil in Hc. }
  by destruct (C26_parse_range_pf (gc_id c) s (Range (MyId 0 0) (MyId 0 0)) Hall) as [_ H'].
Qed.

(* ------------------------------------------------------------------ C59 *)
(** tree16 and tree32: every modifying call returns, with the result stated by
    [returns]. *)
Lemma C59_calls_return_partial_pf : forall (L : Type) (lstr : L -> string) (c : gcfg) (n : N) (m : record L) (g : gtree L) o,
  c ∈ g_packages_16_32 -> g_hist any_op c n m g -> gop_ok c o -> g_room c m o ->
  exists g' r, g_step lstr c g o = Ok (g', r) /\ returns c n m o r /\ g_hist any_op c n (after c m o r) g'.
Proof.
  intros L lstr c n m g o Hc Hh Ho Hr.
  destruct (step_G lstr c Hc n m g o (hist_G c Hc _ n m g Hh) Ho Hr) as (g' & r & Hs & Hret & _).
  exists g', r. split; [done|]. split; [done|]. by eapply hist_more.
Qed.

Lemma size_claim_all {L} (c : gcfg) (ids : list id) (l : L) : forall m : record L,
  (size (claim_all c m ids l) <= size m + length ids)%nat.
Proof.
  induction ids as [|x ids IH]; intros m; cbn; [lia|].
  etransitivity; [apply IH|]. pose proof (GTreeProofs.size_insert m (prefix (gw c) x) (TEntry (i_id x) (i_len x) l)). lia.
Qed.
Lemma size_after {L} (c : gcfg) (m : record L) o r : (size (after c m o r) <= size m + growth c o)%nat.
Proof.
  destruct o as [x l|x l|l|s l|x|sel], r; cbn [after growth]; try lia.
  - pose proof (GTreeProofs.size_insert m (prefix (gw c) x) (TEntry (i_id x) (i_len x) l)). lia.
  - pose proof (GTreeProofs.size_insert m (prefix (gw c) x) (TEntry (i_id x) (i_len x) l)). lia.
  - pose proof (GTreeProofs.size_insert m (prefix (gw c) (eid e)) e). lia.
  - apply size_claim_all.
  - destruct (lookup_id c m x); [|lia]. pose proof (GTreeProofs.size_delete m (prefix (gw c) x)). lia.
  - etransitivity; [|apply Nat.le_add_r]. unfold size, map_size. apply submseteq_length, map_to_list_submseteq, map_filter_subseteq.
Qed.

(** So every list of calls on a new tree runs to its end, and is a history in the
    sense of the other statements, as long as the entries fit the keys. *)
Lemma C59_runs_return_partial_pf : forall (L : Type) (lstr : L -> string) (P : gop L -> Prop) (c : gcfg) (n : N) (os : list (gop L)) (g0 : gtree L),
  c ∈ g_packages_16_32 -> g_new c n = Ok g0 -> Forall (gop_ok c) os -> Forall P os ->
  (gw c = 16 \/ N.of_nat (growth_all c os) + 2 <= 2 ^ 31) ->
  exists g rs, g_run lstr c g0 os = Ok (g, rs) /\ g_hist P c n (after_all c ∅ os rs) g.
Proof.
  intros L lstr P c n os g0 Hc Hn Hok HP Hr.
  assert (H : forall os (m : record L) (g : gtree L), g_hist P c n m g -> Forall (gop_ok c) os -> Forall P os ->
    (gw c = 16 \/ N.of_nat (size m + growth_all c os) + 2 <= 2 ^ 31) ->
    exists g' rs, g_run lstr c g os = Ok (g', rs) /\ g_hist P c n (after_all c m os rs) g').
  { clear - Hc. induction os as [|o os IH]; intros m g Hh Hok HP Hr.
    - do 2 eexists. by split.
    - apply Forall_cons_1 in Hok as [Ho Hok], HP as [HPo HP].
      change (growth_all c (o :: os)) with (growth c o + growth_all c os)%nat in Hr.
      assert (Hro : g_room c m o) by (destruct Hr as [Hr|Hr]; [by left|right; lia]).
      destruct (step_G lstr c Hc n m g o (hist_G c Hc P n m g Hh) Ho Hro) as (g1 & r & Hs & _).
      destruct (IH (after c m o r) g1) as (g' & rs & Hg & Hh'); [by eapply hist_step|done|done| |].
      { destruct Hr as [Hr|Hr]; [by left|right]. pose proof (size_after c m o r). lia. }
      exists g', (r :: rs). cbn. rewrite Hs. cbn. rewrite Hg. by split. }
  apply (H os ∅ g0); [by constructor|done|done|]. by rewrite map_size_empty.
Qed.

(** An id longer than the width makes ClaimFree panic. *)
Lemma C59_long_ids_refuted_pf :
  exists g, (do g <- g_new (L := N) cfg_tree16 4; g_run dec cfg_tree16 g [GClaimID (MyId 3 17) 1]) = Ok (g, [GDone]) /\
    g_step dec cfg_tree16 g (GClaimFree 2) = Panic.
Proof. eexists. split; [vm_compute; reflexivity|vm_compute; reflexivity]. Qed.

(* ------------------------------------------------------------------ C60 *)
(** Clone: Get and ClaimID on the copy panic. *)
Lemma C60_clone_refuted_pf :
  exists g, (do g <- g_new (L := N) cfg_tree32 16;
             g_run dec cfg_tree32 g [GClaimID (MyId 0 20) 1; GClaimID (MyId 4096 24) 2]) = Ok (g, [GDone; GDone]) /\
    g_get g (MyId 0 20) = Ok (TEntry 0 20 1) /\ g_get (g_clone g) (MyId 0 20) = Panic /\
    g_get_all (g_clone g) = Ok [None; None] /\
    g_step dec cfg_tree32 (g_clone g) (GClaimID (MyId 8192 24) 3) = Panic.
Proof. eexists. split; [vm_compute; reflexivity|]. repeat split; vm_compute; reflexivity. Qed.

(** The part that holds: Size() of the copy. *)
Lemma C60_clone_size_partial_pf : forall (L : Type) (c : gcfg) (n : N) (m : record L) (g : gtree L),
  c ∈ g_packages_16_32 -> g_hist any_op c n m g -> g_Size (g_clone g) = g_Size g.
Proof.
  intros L c n m g Hc Hh. pose proof (hist_G c Hc _ n m g Hh) as HG.
  destruct (wide_16_32 (option (tentry L)) _ (gpack c Hc)) as [Hwide Hw].
  destruct (gi_tree _ _ _ _ HG) as [t Ht]. pose proof (Iv_inv _ _ _ _ _ Ht) as Hi.
  pose proof (rep_links None (gc_id c) (g_tree g) 1 t (iv_rep _ _ _ _ Hi)) as Hl.
  destruct (clone_stops None (gc_id c) (g_tree g) 1 t Hl) as (vss' & V1 & V2 & _).
  destruct (iter_inv None (gc_id c) (g_tree g) t Hi) as (I1 & _ & _).
  destruct (iter_links None (clone (g_tree g)) t vss') as (J & _ & _); [by apply links_clone| |apply Hi| |done|].
  { intros ->. by apply (iv_wf _ _ _ _ Hi). }
  { pose proof (iv_cnt _ _ _ _ Hi). cbn [clone t_n]. lia. }
  assert (Hcount : forall (h : gtree L) vss it', iter_loop None (S (N.to_nat (t_n (g_tree h)))) (g_tree h) iterate = Ok (vss, it') ->
    g_Size h = Ok (N.of_nat (length vss))).
  { intros h vss it' H. unfold g_Size, g_for.
    rewrite (g_loop_spec h (fun _ k => Ok (k + 1, false)) (fun _ k => Ok (k + 1, false)) ltac:(done) _ _ vss it' _ H).
    assert (Hf : forall k, fold_body (fun _ k => Ok (k + 1, false)) vss k = Ok (k + N.of_nat (length vss))); [|apply Hf].
    clear. induction vss as [|vs vss IH]; intros k; cbn [fold_body rbind fst snd length].
    - by rewrite N.add_0_r.
    - rewrite IH. f_equal. lia. }
  rewrite (Hcount g _ _ I1), (Hcount (g_clone g) _ _ J).
  apply (f_equal length) in V2. rewrite !fmap_length in V2. by rewrite V2.
Qed.

(* ------------------------------------------------------------------ C79 *)
Lemma between_multiples d a s y u : d <> 0 -> a * d <= y -> y < s * d -> u / d = y / d -> a * d <= u < s * d.
Proof.
  intros Hd Ha Hs Hu.
  assert (Ha' : a <= y / d) by (apply N.div_le_lower_bound; [done|lia]).
  assert (Hs' : y / d < s) by (apply N.div_lt_upper_bound; [done|lia]).
  pose proof (N.div_mod u d Hd) as Hum. pose proof (N.mod_lt u d Hd). rewrite Hu in Hum.
  set (z := y / d) in *. set (r := u mod d) in *. clearbody z r. clear -Ha' Hs' Hum H. nia.
Qed.

(** When the open values are those from k up, the first of the smallest maximal
    block is k. *)
Lemma lowest_chosen (w K k : N) (P : N -> Prop) (b : id) :
  K <= w -> k < 2 ^ K -> (forall u, P u <-> k <= u < 2 ^ K) ->
  canonical w b -> (forall u, covers w b u -> P u) -> maximal_in w P b ->
  (forall q, canonical w q -> (forall u, covers w q u -> P u) -> maximal_in w P q ->
     i_len q < i_len b \/ (i_len q = i_len b /\ i_id b <= i_id q)) ->
  i_id b = k.
Proof.
  intros HK Hk HP Hb Hcov Hmax Hbest.
  assert (Hbk : k <= i_id b) by (by apply HP, Hcov, covers_self).
  destruct (N.eq_dec (i_id b) k) as [E|Hne]; [done|exfalso].
  assert (HKw : 2 ^ K <= 2 ^ w) by (by apply N.pow_le_mono_r).
  apply (max_block w P k); [lia|apply HP; lia|]. intros (q & Hq & Hqk & Hqc & Hqm).
  assert (Hqid : i_id q = k).
  { apply covers_canonical in Hqk; [|done]. pose proof (Hqc (i_id q) (covers_self w q)) as H. apply HP in H. lia. }
  destruct (Hbest q Hq Hqc Hqm) as [Hl|[_ ?]]; [|lia].
  destruct Hb as (Hb1 & Hb2 & Hb3). destruct Hq as (Hq1 & Hq2 & Hq3).
  assert (Hqw : i_len q < i_len b /\ i_len b <= w) by (split; done).
  set (h := 2 ^ (w - i_len b)) in *.
  assert (E1 : exists t, 2 ^ (w - i_len q) = t * (2 * h)).
  { exists (2 ^ (i_len b - i_len q - 1)). unfold h. rewrite <- N.pow_succ_r', <- N.pow_add_r. f_equal. clear -Hqw; lia. }
  destruct E1 as [t Et].
  assert (Hh : 0 < h) by (apply IdProofs.pow_pos).
  assert (Hqhi : k + 2 ^ (w - i_len q) <= 2 ^ K).
  { pose proof (IdProofs.pow_pos (w - i_len q)).
    assert (H1 : covers w q (i_id q + (2 ^ (w - i_len q) - 1))) by (apply covers_canonical; [done|lia]).
    apply Hqc, HP in H1. lia. }
  assert (Hexp : w - i_len q <= K).
  { destruct (N.le_gt_cases (w - i_len q) K) as [H|H]; [done|].
    assert (2 ^ K < 2 ^ (w - i_len q)) by (apply N.pow_lt_mono_r; lia). lia. }
  assert (E2 : exists s, 2 ^ K = s * (2 * h)).
  { exists (2 ^ (K - (w - i_len b) - 1)). unfold h. rewrite <- N.pow_succ_r', <- N.pow_add_r. f_equal. clear -Hqw Hexp; lia. }
  destruct E2 as [s Es].
  assert (E3 : exists a, k = a * (2 * h)).
  { rewrite Hqid in Hq3. rewrite Et in Hq3. exists (k / (t * (2 * h)) * t).
    assert (Ht : t * (2 * h) <> 0) by (rewrite <- Et; apply N.pow_nonzero; lia).
    pose proof (N.div_mod k _ Ht) as H. rewrite Hq3 in H. lia. }
  destruct E3 as [a Ea].
  assert (Hout : k + 2 ^ (w - i_len q) <= i_id b).
  { destruct (N.le_gt_cases (k + 2 ^ (w - i_len q)) (i_id b)) as [H|H]; [done|exfalso].
    assert (Hqb : covers w q (i_id b)) by (apply covers_canonical; [done|rewrite Hqid; lia]).
    pose proof (Hmax q Hq1 Hqb Hqc). lia. }
  assert (Hpar : forall u, covers w (MyId (i_id b) (i_len b - 1)) u -> P u).
  { intros u Hu. unfold covers in Hu. cbn [i_len i_id] in Hu.
    replace (w - (i_len b - 1)) with (N.succ (w - i_len b)) in Hu by (clear -Hqw; lia). rewrite N.pow_succ_r' in Hu. fold h in Hu.
    pose proof (proj2 (HP (i_id b))) as _. pose proof (proj1 (HP (i_id b)) (Hcov _ (covers_self w b))) as [_ Hbhi].
    apply HP. rewrite Et, Ea in Hout. rewrite Es in Hbhi. rewrite Ea, Es.
    clear -Hu Hout Hbhi Hh. apply (between_multiples (2 * h) a s (i_id b)); [lia|nia|done|done]. }
  assert (Hlen : i_len b <= i_len b - 1).
  { apply (Hmax (MyId (i_id b) (i_len b - 1))); cbn [i_len]; [clear -Hqw; lia|apply (covers_self w (MyId (i_id b) (i_len b - 1)))|done]. }
  clear -Hlen Hqw. lia.
Qed.

(** The record of claims of the ids below j. *)
Definition low_ids {L} (c : gcfg) (m : record L) (j : N) : Prop :=
  N.of_nat (size m) <= j /\
  (forall q e, m !! q = Some e -> te_len e = gw c /\ te_id e < j) /\
  (forall i, i < j -> exists q e, m !! q = Some e /\ te_len e = gw c /\ te_id e = i).

Lemma low_open {L} (c : gcfg) (n : N) (m : record L) j : low_ids c m j -> gc_root c n < gw c ->
  forall u, open_id c n m u <-> j <= u < 2 ^ (gw c - gc_root c n).
Proof.
  intros (_ & H1 & H2) Hr u. unfold open_id, root_id. rewrite root_block by lia.
  assert (Hcov : forall (e : tentry L) v, te_len e = gw c -> covers (gw c) (eid e) v <-> v = te_id e).
  { intros e v He. unfold covers, eid. cbn [i_len i_id]. rewrite He, N.sub_diag, N.pow_0_r, !N.div_1_r. done. }
  split.
  - intros (_ & Hu & Hno). split; [|done]. destruct (N.le_gt_cases j u) as [?|Hlt]; [done|exfalso].
    destruct (H2 u Hlt) as (q & e & Hq & Hl & He). apply Hno. exists q, e. rewrite Hl. split; [done|]. split; [done|].
    by apply Hcov.
  - intros [Hj Hu]. split; [|split; [done|]].
    + eapply N.lt_le_trans; [exact Hu|]. apply N.pow_le_mono_r; lia.
    + intros (q & e & Hq & _ & He). destruct (H1 q e Hq) as [Hl Hlt]. apply Hcov in He; [lia|done].
Qed.

Lemma low_more {L} (c : gcfg) (m : record L) j l : j < 2 ^ gw c -> low_ids c m j ->
  (forall q e, m !! q = Some e -> q = prefix (gw c) (eid e) /\ gid_ok c (eid e)) ->
  low_ids c (<[prefix (gw c) (MyId j (gw c)) := TEntry j (gw c) l]> m) (j + 1).
Proof.
  intros Hj (H0 & H1 & H2) Hpre. split; [|split].
  - destruct (m !! prefix (gw c) (MyId j (gw c))) as [e|] eqn:E.
    + destruct (Hpre _ _ E) as [Hq He]. destruct (H1 _ _ E) as [Hl Hlt].
      rewrite map_size_insert_Some by (by eexists). lia.
    + rewrite map_size_insert_None by done. lia.
  - intros q e Hq. apply lookup_insert_Some in Hq as [[<- <-]|[_ Hq]]; cbn [te_len te_id].
    + split; [done|lia].
    + destruct (H1 q e Hq). split; [done|lia].
  - intros i Hi. destruct (N.eq_dec i j) as [->|Hne].
    + eexists _, _. split; [apply lookup_insert|]. done.
    + destruct (H2 i) as (q & e & Hq & Hl & He); [lia|].
      exists q, e. split; [|done]. rewrite lookup_insert_ne; [done|]. intros E.
      destruct (Hpre q e Hq) as [Hqe Hok]. rewrite Hqe in E.
      assert (Hv : covers (gw c) (MyId j (gw c)) (te_id e)).
      { apply (covers_prefix c (eid e) (MyId j (gw c)) (te_id e) Hok); [by split|done|]. apply (covers_self _ (eid e)). }
      unfold covers in Hv. cbn [i_len i_id] in Hv. rewrite N.sub_diag, N.pow_0_r, !N.div_1_r in Hv. lia.
Qed.

Lemma in_order {L} (lstr : L -> string) (c : gcfg) (n k : N) (ls : list L) :
  c ∈ g_packages_16_32 -> gc_root c n < gw c -> k = N.min n (gw c - gc_root c n) -> gw c = 16 \/ k <= 16 ->
  forall j (m : record L) g, g_hist any_op c n m g -> low_ids c m j -> j <= 2 ^ k ->
  exists g' rs, g_run lstr c g (map GClaimFree ls) = Ok (g', rs) /\ length rs = length ls /\
    forall i l, ls !! i = Some l ->
      rs !! i = Some (if j + N.of_nat i <? 2 ^ k then GEntry (TEntry (j + N.of_nat i) (gw c) l)
                      else GErr (if n <? gw c - gc_root c n then EMaxId else ENoFreeId)).
Proof.
  intros Hc Hroot Hk Hk16. set (K := gw c - gc_root c n) in *.
  assert (HkK : 2 ^ k <= 2 ^ K) by (apply N.pow_le_mono_r; lia).
  assert (Hkn : 2 ^ k <= 2 ^ n) by (apply N.pow_le_mono_r; lia).
  assert (HKw : 2 ^ K <= 2 ^ gw c) by (apply N.pow_le_mono_r; lia).
  induction ls as [|l ls IH]; intros j m g Hh Hlow Hj.
  { exists g, []. split; [done|]. split; [done|]. intros i l Hi. by rewrite lookup_nil in Hi. }
  pose proof (hist_G c Hc _ n m g Hh) as HG.
  assert (Hr : g_room c m (GClaimFree l)).
  { destruct Hk16 as [H|H]; [by left|right]. destruct Hlow as (Hs & _). cbn [growth].
    assert (2 ^ k <= 2 ^ 16) by (apply N.pow_le_mono_r; lia). change (2 ^ 16) with 65536 in *.
    change (2 ^ 31) with 2147483648. lia. }
  assert (Ho : gop_ok c (GClaimFree l)) by done.
  destruct (step_G lstr c Hc n m g (GClaimFree l) HG Ho Hr) as (g1 & r & Hs & Hret & _).
  pose proof (hist_more lstr c n m g _ g1 r Hh Ho Hr Hs) as Hh1.
  pose proof (low_open c n m j Hlow Hroot) as Hopen. fold K in Hopen.
  assert (Hch : forall v, chosen c n m v -> j < 2 ^ K /\ v = j).
  { intros v Hv. assert (Hjk : j < 2 ^ K) by (apply chosen_open, Hopen in Hv; lia). split; [done|].
    destruct Hv as (b & <- & Hb1 & Hb2 & Hb3 & Hb4).
    apply (lowest_chosen (gw c) K j (open_id c n m)); try done. unfold K. lia. }
  assert (Hres : r = if j <? 2 ^ k then GEntry (TEntry j (gw c) l) else GErr (if n <? K then EMaxId else ENoFreeId)).
  { cbn [returns] in Hret. destruct Hret as [(v & Hv & ->)|[Hnone ->]].
    - destruct (Hch v Hv) as [HjK ->]. destruct (N.ltb_spec j (2 ^ k)).
      + destruct (N.leb_spec (2 ^ n) j); [lia|done].
      + assert (E : j = 2 ^ k) by lia. destruct (N.ltb_spec n K).
        * replace k with n in E by lia. subst j. by rewrite N.leb_refl.
        * exfalso. replace k with K in E by lia. lia.
    - destruct (N.ltb_spec j (2 ^ k)); [exfalso; apply (Hnone j), Hopen; lia|].
      destruct (N.ltb_spec n K) as [HnK|HnK]; [|done]. exfalso.
      assert (2 ^ n < 2 ^ K) by (apply N.pow_lt_mono_r; lia). apply (Hnone j), Hopen.
      replace k with n in * by lia. lia. }
  destruct (N.ltb_spec j (2 ^ k)) as [Hlt|Hge].
  - subst r. cbn [after] in Hh1. unfold eid in Hh1. cbn [te_id te_len] in Hh1.
    destruct (IH (j + 1) _ g1 Hh1) as (g' & rs & Hrun & Hlen & Hrs); [|lia|].
    { apply low_more; [lia|done|]. intros q e Hq. by destruct (gi_ok _ _ _ _ HG _ _ Hq). }
    exists g', (GEntry (TEntry j (gw c) l) :: rs). cbn [map g_run]. rewrite Hs. cbn [rbind fst snd]. rewrite Hrun. cbn [rbind fst snd].
    split; [done|]. split; [cbn; by rewrite Hlen|]. intros [|i] l' Hi.
    + cbn in Hi |- *. injection Hi as <-. rewrite N.add_0_r. destruct (N.ltb_spec j (2 ^ k)); [done|lia].
    + change ((l :: ls) !! S i) with (ls !! i) in Hi. etransitivity; [exact (Hrs i l' Hi)|]. replace (j + 1 + N.of_nat i) with (j + N.of_nat (S i)) by lia. done.
  - subst r. cbn [after] in Hh1.
    destruct (IH j _ g1 Hh1 Hlow Hj) as (g' & rs & Hrun & Hlen & Hrs).
    exists g', (GErr (if n <? K then EMaxId else ENoFreeId) :: rs). cbn [map g_run]. rewrite Hs. cbn [rbind fst snd]. rewrite Hrun. cbn [rbind fst snd].
    split; [done|]. split; [cbn; by rewrite Hlen|]. intros [|i] l' Hi.
    + cbn. rewrite N.add_0_r. destruct (N.ltb_spec j (2 ^ k)); [lia|done].
    + change ((l :: ls) !! S i) with (ls !! i) in Hi. etransitivity; [exact (Hrs i l' Hi)|].
      destruct (N.ltb_spec (j + N.of_nat i) (2 ^ k)); [lia|]. destruct (N.ltb_spec (j + N.of_nat (S i)) (2 ^ k)); [lia|done].
Qed.

Lemma low_new {L} (c : gcfg) : low_ids (L := L) c ∅ 0.
Proof.
  split; [by rewrite map_size_empty|]. split; [|lia]. intros q e H. unfold pmap in H. by rewrite lookup_empty in H.
Qed.

(** Calls of ClaimFree on a new tree16 return its ids from 0 up, each once, then
    fail. *)
Lemma C79_tree16_in_order_pf : forall (L : Type) (lstr : L -> string) (n : N) (ls : list L), 1 <= n <= 16 ->
  exists g0 g rs, g_new cfg_tree16 n = Ok g0 /\ g_run lstr cfg_tree16 g0 (map GClaimFree ls) = Ok (g, rs) /\
    length rs = length ls /\
    forall i l, ls !! i = Some l ->
      rs !! i = Some (if N.of_nat i <? 2 ^ n then GEntry (TEntry (N.of_nat i) 16 l) else GErr ENoFreeId).
Proof.
  intros L lstr n ls Hn. assert (Hc : cfg_tree16 ∈ g_packages_16_32) by left.
  assert (E : gc_root cfg_tree16 n = 16 - n).
  { cbn [cfg_tree16 gc_root]. unfold usub, uwrap. change (2 ^ 8) with 256. rewrite (N.mod_small n) by lia.
    replace (16 + 256 - n) with ((16 - n) + 1 * 256) by lia. rewrite N.mod_add by done. rewrite N.mod_small; lia. }
  assert (H0 : exists g0, g_new (L := L) cfg_tree16 n = Ok g0).
  { unfold g_new. change (gw cfg_tree16) with 16. destruct (N.ltb_spec 16 n); [lia|]. by eexists. }
  destruct H0 as [g0 H0]. exists g0.
  destruct (in_order lstr cfg_tree16 n n ls Hc) with (j := 0) (m := ∅ : record L) (g := g0) as (g & rs & H1 & H2 & H3).
  - rewrite E. change (gw cfg_tree16) with 16. lia.
  - rewrite E. change (gw cfg_tree16) with 16. lia.
  - by left.
  - by constructor.
  - apply low_new.
  - lia.
  - exists g, rs. split; [done|]. split; [done|]. split; [done|]. intros i l Hi. rewrite (H3 i l Hi). rewrite E.
    change (gw cfg_tree16) with 16. rewrite N.add_0_l. destruct (N.ltb_spec n (16 - (16 - n))); [lia|done].
Qed.

(** On a new tree32 of length n likewise, but only the first 2^(32-n) when n is
    above 16; with n below 16 the error is that of an id out of range. *)
Lemma C79_tree32_in_order_pf : forall (L : Type) (lstr : L -> string) (n : N) (ls : list L), n <= 31 ->
  exists g0 g rs, g_new cfg_tree32 n = Ok g0 /\ g_run lstr cfg_tree32 g0 (map GClaimFree ls) = Ok (g, rs) /\
    length rs = length ls /\
    forall i l, ls !! i = Some l ->
      rs !! i = Some (if N.of_nat i <? 2 ^ N.min n (32 - n) then GEntry (TEntry (N.of_nat i) 32 l)
                      else GErr (if n <? 16 then EMaxId else ENoFreeId)).
Proof.
  intros L lstr n ls Hn. assert (Hc : cfg_tree32 ∈ g_packages_16_32) by (right; left).
  assert (E : gc_root cfg_tree32 n = n) by done.
  assert (H0 : exists g0, g_new (L := L) cfg_tree32 n = Ok g0).
  { unfold g_new. change (gw cfg_tree32) with 32. destruct (N.ltb_spec 32 n); [lia|]. by eexists. }
  destruct H0 as [g0 H0]. exists g0.
  destruct (in_order lstr cfg_tree32 n (N.min n (32 - n)) ls Hc) with (j := 0) (m := ∅ : record L) (g := g0) as (g & rs & H1 & H2 & H3).
  - rewrite E. change (gw cfg_tree32) with 32. lia.
  - rewrite E. change (gw cfg_tree32) with 32. lia.
  - right. lia.
  - by constructor.
  - apply low_new.
  - lia.
  - exists g, rs. split; [done|]. split; [done|]. split; [done|]. intros i l Hi. rewrite (H3 i l Hi). rewrite E.
    change (gw cfg_tree32) with 32. rewrite N.add_0_l.
    destruct (N.ltb_spec n (32 - n)), (N.ltb_spec n 16); first [lia|done].
Qed.
