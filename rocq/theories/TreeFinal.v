(** Proofs of the property statements about the radix tree of pkg/tree. *)
From Verif Require Import TreeSpec TreeMain.
From Coq Require Import Lia ZifyBool ZifyNat ZifyN.
Local Open Scope N_scope.

Lemma wide_16_32 T c : c ∈ id_packages_16_32 -> wide T c /\ id_w c ∈ [16; 32; 64].
Proof.
  unfold id_packages_16_32. intros H. apply elem_of_cons in H as [->|H]; [split; [by split; [left; split|..]|cbn; set_solver]|].
  apply elem_of_cons in H as [->|H]; [split; [by split; [left; split|..]|cbn; set_solver]|]. by apply elem_of_nil in H.
Qed.

(** After any sequence of calls the results are those of a plain map from
    prefixes to value lists, and the tree holds what the map holds.  The part
    left out: the 64-bit ids, and more than 2^w values at one prefix. *)
Lemma C31_tree_is_a_map_partial_pf : forall (T : Type) (zero : T) (c : idcfg) (os : list (top T)),
  c ∈ id_packages_16_32 -> Forall (top_ok c) os -> roomy (id_w c) ∅ os ->
  exists s pv,
    t_run zero c (tree_zero c) os = Ok (s, snd (spec_run (id_w c) ∅ os)) /\
    listing (fst (spec_run (id_w c) ∅ os)) pv /\
    iter_all zero s = Ok pv.*2.
Proof.
  intros T zero c os Hc Ho Hr. destruct (wide_16_32 T c Hc) as [Hwide Hw].
  destruct (run_zero zero c Hw os Hr Ho) as (s & t & H1 & H2 & H3).
  exists s, (pre [] t). split; [done|]. split; [by eapply Inv_listing|].
  rewrite pre_vlist. by eapply iter_inv, Iv_inv.
Qed.

Lemma put_size {T} (m : pmap T) q l : (size (put m q l) <= S (size m))%nat.
Proof.
  unfold put, pmap in *. destruct l as [|a l].
  - destruct (m !! q) as [b|] eqn:Hq.
    + pose proof (map_size_delete_Some q m (ex_intro _ b Hq)). lia.
    + pose proof (map_size_delete_None q m Hq). lia.
  - rewrite map_size_insert. destruct (m !! q); cbn; lia.
Qed.

Lemma set_list_length {T} (v : T) l : (length (set_list v l) <= S (length l))%nat.
Proof. destruct l; cbn; lia. Qed.
Lemma add_list_length' {T} mf (v : T) l : (length (add_list mf v l) <= S (length l))%nat.
Proof.
  destruct mf as [m|]; cbn; [destruct (existsb _ l)|]; rewrite ?app_length; cbn; lia.
Qed.

Lemma put_bound {T} (m : pmap T) q l B : (length l <= B)%nat -> (forall q' l', m !! q' = Some l' -> (length l' <= B)%nat) ->
  forall q' l', put m q l !! q' = Some l' -> (length l' <= B)%nat.
Proof.
  unfold put, pmap in *. intros Hl Hm q' l'. destruct l as [|a l].
  - destruct (decide (q' = q)) as [->|Hq]; [by rewrite lookup_delete|rewrite lookup_delete_ne by done]. apply Hm.
  - destruct (decide (q' = q)) as [->|Hq]; [rewrite lookup_insert|rewrite lookup_insert_ne by done].
    + intros E. by injection E as <-.
    + apply Hm.
Qed.

Lemma held_le {T} (m : pmap T) q B : (forall q' l', m !! q' = Some l' -> (length l' <= B)%nat) -> (length (held m q) <= B)%nat.
Proof. intros Hm. unfold held. destruct (m !! q) eqn:E; [by eapply Hm|cbn; lia]. Qed.

Lemma step_bound {T} w (m : pmap T) o B :
  (forall q l, m !! q = Some l -> (length l <= B)%nat) ->
  forall q l, fst (spec_step w m o) !! q = Some l -> (length l <= S B)%nat.
Proof.
  intros Hm.
  assert (Hm' : forall q l, m !! q = Some l -> (length l <= S B)%nat) by (intros q l H; specialize (Hm q l H); lia).
  destruct o as [x v|x v mf|x mf v]; cbn [spec_step fst]; apply put_bound; try done;
    pose proof (held_le m (prefix w x) B Hm) as Hh.
  - pose proof (set_list_length v (held m (prefix w x))). lia.
  - pose proof (add_list_length' mf v (held m (prefix w x))). lia.
  - pose proof (delete_list_length mf v (held m (prefix w x))). lia.
Qed.

Lemma step_size {T} w (m : pmap T) o : (size (fst (spec_step w m o)) <= S (size m))%nat.
Proof. destruct o; cbn [spec_step fst]; apply put_size. Qed.

Lemma short_roomy {T} w (os : list (top T)) : forall (m : pmap T) B,
  (forall q l, m !! q = Some l -> (length l <= B)%nat) ->
  N.of_nat (size m + length os) + 2 <= 2 ^ (kbits w - 1) -> N.of_nat (B + length os) <= 2 ^ w -> roomy w m os.
Proof.
  induction os as [|o os IH]; intros m B HB Hs Hl; cbn [roomy length] in *.
  - split; [|done]. split; [lia|]. intros q l H. specialize (HB q l H). lia.
  - split.
    + split; [lia|]. intros q l H. specialize (HB q l H). lia.
    + apply (IH _ (S B)).
      * by apply step_bound.
      * pose proof (step_size w m o). lia.
      * lia.
Qed.

(** Runs that are not astronomically long always fit. *)
Lemma C31_short_runs_are_roomy_pf : forall (T : Type) (c : idcfg) (os : list (top T)),
  c ∈ id_packages_16_32 ->
  N.of_nat (length os) <= (if id_w c =? 16 then 2 ^ 16 else 2 ^ 31 - 2) ->
  roomy (id_w c) (∅ : pmap T) os.
Proof.
  intros T c os Hc Hl. assert (He : size (∅ : pmap T) = 0%nat) by (apply (map_size_empty (M := gmap (list bool)))).
  apply (short_roomy _ _ _ 0); rewrite ?He.
  - done.
  - unfold id_packages_16_32 in Hc. apply elem_of_cons in Hc as [->|Hc].
    + change (N.of_nat (length os) <= 65536) in Hl. change (2 ^ _) with (2 ^ 47). lia.
    + apply elem_of_list_singleton in Hc as ->. change (N.of_nat (length os) <= 2147483646) in Hl.
      change (2 ^ _) with 2147483648. lia.
  - unfold id_packages_16_32 in Hc. apply elem_of_cons in Hc as [->|Hc].
    + change (N.of_nat (length os) <= 65536) in Hl. change (2 ^ _) with 65536. lia.
    + apply elem_of_list_singleton in Hc as ->. change (N.of_nat (length os) <= 2147483646) in Hl.
      change (2 ^ _) with 4294967296. lia.
Qed.

(** The prefixes of at most n bits. *)
Fixpoint upto (n : nat) : list (list bool) :=
  match n with
  | O => [[]]
  | S k => [] :: (cons false <$> upto k) ++ (cons true <$> upto k)
  end.
Lemma upto_elem n q : (length q <= n)%nat -> q ∈ upto n.
Proof.
  revert q. induction n as [|n IH]; intros q Hq; cbn [upto].
  - destruct q; [left|cbn in Hq; lia].
  - destruct q as [|[] q]; [left|right; apply elem_of_app..].
    + right. apply elem_of_list_fmap. exists q. split; [done|]. apply IH. cbn in Hq. lia.
    + left. apply elem_of_list_fmap. exists q. split; [done|]. apply IH. cbn in Hq. lia.
Qed.
Lemma upto_length n : N.of_nat (length (upto n)) + 1 = 2 ^ N.of_nat (S n).
Proof.
  induction n as [|n IH]; [done|]. rewrite (Nat2N.inj_succ (S n)), N.pow_succ_r', <- IH. cbn [upto length].
  rewrite app_length, !fmap_length. lia.
Qed.

Lemma keys_size {T} n (m : pmap T) : (forall q l, m !! q = Some l -> (length q <= n)%nat) ->
  N.of_nat (size m) + 1 <= 2 ^ N.of_nat (S n).
Proof.
  unfold pmap in *. intros Hm. rewrite <- upto_length.
  assert (size m <= length (upto n))%nat; [|lia].
  rewrite <- (size_dom (D := gset (list bool))).
  change (length (elements (dom m)) <= length (upto n))%nat.
  apply submseteq_length, NoDup_submseteq; [apply NoDup_elements|]. intros q Hq.
  apply elem_of_elements, elem_of_dom in Hq as [l Hl]. by eapply upto_elem, Hm.
Qed.

Lemma prefix_length w x : length (prefix w x) = N.to_nat (i_len x).
Proof. unfold prefix, bits. by rewrite fmap_length, seq_length. Qed.

Lemma put_keys {T} (m : pmap T) q l n : (length q <= n)%nat -> (forall q' l', m !! q' = Some l' -> (length q' <= n)%nat) ->
  forall q' l', put m q l !! q' = Some l' -> (length q' <= n)%nat.
Proof.
  unfold put, pmap in *. intros Hl Hm q' l'. destruct l as [|a l].
  - destruct (decide (q' = q)) as [->|Hq]; [done|rewrite lookup_delete_ne by done]. apply Hm.
  - destruct (decide (q' = q)) as [->|Hq]; [done|rewrite lookup_insert_ne by done]. apply Hm.
Qed.

Lemma single_step {T} w (m : pmap T) o : set_or_delete o ->
  (forall q l, m !! q = Some l -> (length l <= 1)%nat) ->
  forall q l, fst (spec_step w m o) !! q = Some l -> (length l <= 1)%nat.
Proof.
  intros Ho Hm. destruct o as [x v|x v mf|x mf v]; [|done|]; cbn [spec_step fst]; apply put_bound; try done;
    pose proof (held_le m (prefix w x) 1 Hm) as Hh.
  - destruct (held m (prefix w x)); cbn in *; lia.
  - pose proof (delete_list_length mf v (held m (prefix w x))). lia.
Qed.

Lemma roomy_16 {T} (os : list (top T)) : forall (m : pmap T),
  (forall q l, m !! q = Some l -> (length q <= 16)%nat) ->
  (forall q l, m !! q = Some l -> (length l <= 1)%nat) ->
  Forall (top_ok cfg_id16) os -> Forall set_or_delete os -> roomy 16 m os.
Proof.
  induction os as [|o os IH]; intros m Hk H1 Ho Hs; cbn [roomy].
  - split; [|done]. split.
    + pose proof (keys_size 16 m Hk) as H. change (2 ^ N.of_nat 17) with 131072 in H. cbn. lia.
    + intros q l H. specialize (H1 q l H). cbn. lia.
  - apply Forall_cons in Ho as [Ho Hos]. apply Forall_cons in Hs as [Hs Hss]. split.
    + split.
      * pose proof (keys_size 16 m Hk) as H. change (2 ^ N.of_nat 17) with 131072 in H. cbn. lia.
      * intros q l H. specialize (H1 q l H). cbn. lia.
    + apply IH; [|by apply single_step|done|done].
      destruct Ho as [_ Hlen]. change (id_w cfg_id16) with 16 in Hlen.
      destruct o as [x v|x v mf|x mf v]; cbn [spec_step fst top_id] in *;
        (apply put_keys; [rewrite prefix_length; lia|done]).
Qed.

(** With Set and Delete only, as in package tree16, nothing is left out: the
    16-bit tree is a map for all sequences of calls. *)
Lemma C31_tree16_set_delete_pf : forall (T : Type) (zero : T) (os : list (top T)),
  Forall (top_ok cfg_id16) os -> Forall set_or_delete os ->
  exists s pv,
    t_run zero cfg_id16 (tree_zero cfg_id16) os = Ok (s, snd (spec_run 16 ∅ os)) /\
    listing (fst (spec_run 16 ∅ os)) pv /\
    iter_all zero s = Ok pv.*2.
Proof.
  intros T zero os Ho Hs. apply (C31_tree_is_a_map_partial_pf T zero cfg_id16 os); [left|done|].
  apply roomy_16; try done.
Qed.

Lemma drop_dup_app {T} (m : T -> T -> bool) l : forall acc,
  (forall i j a b, (acc ++ l) !! i = Some a -> (acc ++ l) !! j = Some b -> (i < j)%nat -> m a b = false) ->
  fold_left (fun acc y => add_list (Some m) y acc) l acc = acc ++ l.
Proof.
  induction l as [|b l IH]; intros acc H; cbn [fold_left]; [by rewrite app_nil_r|].
  assert (E : existsb (fun y => m y b) acc = false).
  { apply not_true_is_false. intros E. apply existsb_exists in E as (a & Ha & Hm).
    apply elem_of_list_In, elem_of_list_lookup in Ha as [i Hi].
    rewrite (H i (length acc) a b) in Hm; [done| | |].
    - by apply lookup_app_l_Some.
    - rewrite lookup_app_r by lia. by rewrite Nat.sub_diag.
    - by apply lookup_lt_Some in Hi. }
  cbn [add_list]. rewrite E. rewrite IH; by rewrite <- app_assoc.
Qed.

(** What Delete leaves is what does not match, unless some of it matches a value
    before it. *)
Lemma C31_delete_is_filter_pf : forall (T : Type) (mf : T -> T -> bool) (v : T) (l : list T),
  (forall i j a b, l !! i = Some a -> l !! j = Some b -> (i < j)%nat -> mf a v = false -> mf b v = false -> mf a b = false) ->
  delete_list mf v l = List.filter (fun y => negb (mf y v)) l.
Proof.
  intros T mf v l H. unfold delete_list, drop_duplicates. rewrite drop_dup_app; [done|]. cbn [app].
  induction l as [|a l IH]; [done|]. cbn [List.filter].
  assert (Htl : forall i j x y, List.filter (fun y => negb (mf y v)) l !! i = Some x ->
    List.filter (fun y => negb (mf y v)) l !! j = Some y -> (i < j)%nat -> mf x y = false).
  { apply IH. intros i j x y Hi Hj Hij. by apply (H (S i) (S j)); [..|lia]. }
  destruct (mf a v) eqn:Ha; cbn [negb]; [done|].
  intros [|i] [|j] x y Hi Hj Hij; [lia| |lia|].
  - cbn in Hi. injection Hi as <-. change (List.filter (fun y => negb (mf y v)) l !! j = Some y) in Hj.
    apply elem_of_list_lookup_2, elem_of_list_In, filter_In in Hj as [Hj Hv].
    apply elem_of_list_In, elem_of_list_lookup in Hj as [k Hk].
    apply (H 0%nat (S k)); [done|done|lia|done|]. by destruct (mf y v).
  - apply (Htl i j); [done|done|lia].
Qed.

(** 65537 values added to one prefix of an id16 tree: the last one is stored at the
    place of the value of another prefix. *)
Definition many_values (k : N) : list (top N) :=
  TSet (MyId 0 1) 7 :: replicate (N.to_nat k) (TAdd (MyId 0 0) 2 None).
Local Lemma many_values_run :
  match t_run 0 cfg_id16 (tree_zero cfg_id16) (many_values 65537) with
  | Ok (s, _) => do a <- iter_next s iterate; do b <- iter_next s (fst a); iter_vals 0 s (fst b)
  | _ => Panic
  end = Ok [2].
Proof. vm_compute. reflexivity. Qed.
Local Lemma ok_run {A B C} (r : res (A * B)) (f : A -> res C) (x : C) :
  match r with Ok (s, _) => f s | _ => Panic end = Ok x -> exists s b, r = Ok (s, b) /\ f s = Ok x.
Proof. destruct r as [[s b]| |]; intros H; [by exists s, b|discriminate..]. Qed.
Local Lemma many_values_spec k :
  Forall (top_ok cfg_id16) (many_values k) /\
  fst (spec_run 16 ∅ (many_values k)) !! prefix 16 (MyId 0 1) = Some [7].
Proof.
  split.
  - constructor; [split; vm_compute; done|]. apply Forall_replicate. split; vm_compute; done.
  - unfold many_values. cbn [spec_run spec_step fst snd]. generalize (N.to_nat k). clear k. intros k.
    assert (H : forall (m : pmap N), m !! prefix 16 (MyId 0 1) = Some [7] ->
      fst (spec_run 16 m (replicate k (TAdd (MyId 0 0) 2 None))) !! prefix 16 (MyId 0 1) = Some [7]).
    { induction k as [|k IH]; intros m Hm; [done|]. cbn [replicate spec_run spec_step fst snd]. apply IH.
      unfold put, pmap in *. destruct (add_list _ _ _).
      - rewrite (lookup_delete_ne (M := gmap (list bool))); [done|]. vm_compute. discriminate.
      - rewrite (lookup_insert_ne (M := gmap (list bool))); [done|]. vm_compute. discriminate. }
    apply H. vm_compute. reflexivity.
Qed.
Lemma C31_many_values_refuted_pf : exists os : list (top N),
  Forall (top_ok cfg_id16) os /\ fst (spec_run 16 ∅ os) !! prefix 16 (MyId 0 1) = Some [7] /\
  exists s rs, t_run 0 cfg_id16 (tree_zero cfg_id16) os = Ok (s, rs) /\
    (do a <- iter_next s iterate; do b <- iter_next s (fst a); iter_vals 0 s (fst b)) = Ok [2].
Proof.
  exists (many_values 65537). destruct (many_values_spec 65537) as [H1 H2]. split; [exact H1|]. split; [exact H2|].
  apply (ok_run (t_run 0 cfg_id16 (tree_zero cfg_id16) (many_values 65537))
    (fun s => do a <- iter_next s iterate; do b <- iter_next s (fst a); iter_vals 0 s (fst b)) [2]).
  exact many_values_run.
Qed.

(** With 64-bit ids all nodes share one key: the second value overwrites the
    first. *)
Lemma C31_tree64_refuted_pf :
  exists (os : list (top N)) s rs pv,
    Forall (top_ok cfg_id64) os /\ Forall set_or_delete os /\
    t_run 0 cfg_id64 (tree_zero cfg_id64) os = Ok (s, rs) /\
    listing (fst (spec_run 64 ∅ os)) pv /\ iter_all 0 s <> Ok pv.*2.
Proof.
  exists [TSet (MyId 0 1) 10; TSet (MyId (2 ^ 63) 1) 20]. do 2 eexists.
  exists [(prefix 64 (MyId 0 1), [10]); (prefix 64 (MyId (2 ^ 63) 1), [20])].
  split; [repeat constructor; cbn; lia|]. split; [by repeat constructor|]. split; [vm_compute; reflexivity|]. split.
  - split.
    + repeat constructor; vm_compute; by left.
    + intros q l. cbn [spec_run spec_step fst].
      change (set_list 20 _) with [20]. change (set_list 10 _) with [10].
      unfold put, pmap. rewrite !elem_of_cons, elem_of_nil. rewrite lookup_insert_Some.
      rewrite (lookup_insert_Some (M := gmap (list bool)) ∅), (lookup_empty (M := gmap (list bool))).
      assert (Hne : prefix 64 (MyId 0 1) <> prefix 64 (MyId (2 ^ 63) 1)) by (vm_compute; done).
      split.
      * intros [E|[E|[]]]; injection E as -> ->; [right|by left]. split; [done|]. by left.
      * intros [[<- <-]|[Hq [[<- <-]|[_ E]]]]; [right; by left|by left|done].
  - vm_compute. done.
Qed.

(** The iteration: every stored prefix once, a prefix before its extensions and
    bit 0 before bit 1, with its values; then Next is false, and stays false. *)
Lemma C33_values_of_map_pf : forall (T : Type) (zero : T) (c : idcfg) (os : list (top T)) s rs,
  c ∈ id_packages_16_32 -> Forall (top_ok c) os -> roomy (id_w c) ∅ os ->
  t_run zero c (tree_zero c) os = Ok (s, rs) ->
  exists pv it,
    listing (fst (spec_run (id_w c) ∅ os)) pv /\
    iter_loop zero (S (N.to_nat (t_n s))) s iterate = Ok (pv.*2, it) /\
    iter_next s it = Ok (it, false).
Proof.
  intros T zero c os s rs Hc Ho Hr Hrun. destruct (wide_16_32 T c Hc) as [Hwide Hw].
  destruct (run_zero zero c Hw os Hr Ho) as (s' & t & H1 & H2 & H3). rewrite H1 in Hrun. injection Hrun as -> <-.
  exists (pre [] t), (Iter 1 [] NUp). split; [by eapply Inv_listing|].
  destruct (iter_inv zero c s t (Iv_inv _ _ _ _ _ H2)) as (I1 & I2 & I3). rewrite pre_vlist. by split.
Qed.

(** Clone: the copy forgets the length of the ids, so it reads other keys. *)
Lemma C36_clone_refuted_pf :
  exists (os : list (top N)) s rs,
    Forall (top_ok cfg_id32) os /\ roomy 32 ∅ os /\
    t_run 0 cfg_id32 (tree_zero cfg_id32) os = Ok (s, rs) /\
    iter_all 0 s = Ok [[10]; [20]] /\ iter_all 0 (clone s) = Ok [[0]; [0]] /\
    (exists s', t_step 0 cfg_id32 s (TSet (MyId 0xb0000000 4) 30) = Ok s') /\
    t_step 0 cfg_id32 (clone s) (TSet (MyId 0xb0000000 4) 30) = Panic.
Proof.
  exists [TSet (MyId 0x10000000 8) 10; TSet (MyId 0xa0000000 4) 20]. do 2 eexists.
  split; [repeat constructor; cbn; lia|].
  split. { apply (C31_short_runs_are_roomy_pf N cfg_id32); [right; left|vm_compute; discriminate]. }
  split; [vm_compute; reflexivity|]. split; [vm_compute; reflexivity|]. split; [vm_compute; reflexivity|].
  split; [eexists; vm_compute; reflexivity|vm_compute; reflexivity].
Qed.

(** In general: iterating over a copy stops as often as iterating over the
    original and gives as many values at every stop, but all of them are the zero
    value while nodes and values per prefix together are fewer than 2^w. *)
Lemma C36_clone_partial_pf : forall (T : Type) (zero : T) (c : idcfg) (os : list (top T)) s rs vss B,
  c ∈ id_packages_16_32 -> Forall (top_ok c) os -> roomy (id_w c) ∅ os ->
  t_run zero c (tree_zero c) os = Ok (s, rs) -> iter_all zero s = Ok vss ->
  exists vss', iter_all zero (clone s) = Ok vss' /\ length <$> vss' = length <$> vss /\
    (Forall (fun l => N.of_nat (length l) <= B) vss -> t_n s + B <= 2 ^ id_w c -> Forall (Forall (eq zero)) vss').
Proof.
  intros T zero c os s rs vss B Hc Ho Hr Hrun Hit. destruct (wide_16_32 T c Hc) as [Hwide Hw].
  destruct (run_zero zero c Hw os Hr Ho) as (s' & t & H1 & H2 & H3). rewrite H1 in Hrun. injection Hrun as -> <-.
  pose proof (Iv_inv _ _ _ _ _ H2) as Hi.
  destruct (iter_inv zero c s t Hi) as (_ & I2 & _). rewrite I2 in Hit. injection Hit as <-.
  pose proof (rep_links zero c s 1 t (iv_rep _ _ _ _ Hi)) as Hl.
  destruct (clone_stops zero c s 1 t Hl) as (vss' & V1 & V2 & V3).
  exists vss'. split; [|split; [done|]].
  - destruct (iter_links zero (clone s) t vss') as (_ & J & _); [by apply links_clone| |apply Hi| |done|done].
    + intros ->. by apply (iv_wf _ _ _ _ Hi).
    + pose proof (iv_cnt _ _ _ _ Hi). cbn [clone t_n]. lia.
  - intros HB Hn. apply (V3 B); try done.
    + unfold id_packages_16_32 in Hc. clear -Hc. apply elem_of_cons in Hc as [->|Hc]; [done|].
      by apply elem_of_list_singleton in Hc as ->.
    + by apply (Iv_low _ _ _ _ _ H2).
    + intros j Hj. apply (rep_dom zero c s _ _ j (iv_rep _ _ _ _ Hi)) in Hj as (Hj & _).
      by apply (ao_dom _ _ (iv_alloc _ _ _ _ Hi)).
    + by apply Forall_forall.
Qed.

(* ------------------------------------------------------------------ C72 *)
Lemma land_left_mask w x l : x < 2 ^ w -> N.of_nat l <= w ->
  N.land x (left_mask w l) = x / 2 ^ (w - N.of_nat l) * 2 ^ (w - N.of_nat l).
Proof.
  intros Hx Hl. rewrite <- N.shiftr_div_pow2, <- N.shiftl_mul_pow2. apply N.bits_inj. intros j.
  rewrite N.land_spec, left_mask_bit by done.
  destruct (N.le_gt_cases w j) as [Hj|Hj].
  - assert (E : N.testbit x j = false).
    { destruct (N.eq_dec x 0) as [->|H0]; [apply N.bits_0|]. apply N.bits_above_log2. apply N.log2_lt_pow2 in Hx; lia. }
    rewrite E. destruct (N.le_gt_cases (w - N.of_nat l) j) as [H|H]; [|lia].
    rewrite N.shiftl_spec_high' by done. rewrite N.shiftr_spec'. by replace (j - (w - N.of_nat l) + (w - N.of_nat l)) with j by lia.
  - destruct (N.le_gt_cases (w - N.of_nat l) j) as [H|H].
    + rewrite N.shiftl_spec_high', N.shiftr_spec' by done. replace (j - (w - N.of_nat l) + (w - N.of_nat l)) with j by lia.
      assert ((w - N.of_nat l <=? j) && (j <? w) = true) as -> by lia. apply andb_true_r.
    + rewrite N.shiftl_spec_low by done. assert ((w - N.of_nat l <=? j) && (j <? w) = false) as -> by lia. apply andb_false_r.
Qed.

(** MergeID: the first leftLength bits of left, followed by the first
    rightLength bits of right as far as the width goes; then zeros. *)
Lemma C72_merge_id_pf : forall w l ll r rl, w ∈ [16; 32; 64] -> l < 2 ^ w -> r < 2 ^ w -> ll <= w -> rl <= w ->
  merge_id w l ll r rl =
    Ok (l / 2 ^ (w - ll) * 2 ^ (w - ll) + r / 2 ^ (w - rl) * 2 ^ (w - rl) / 2 ^ ll, ll + rl).
Proof.
  intros w l ll r rl Hw Hl Hr Hll Hrl.
  assert (Hw64 : w <= 64).
  { apply elem_of_cons in Hw as [->|Hw]; [lia|]. apply elem_of_cons in Hw as [->|Hw]; [lia|].
    apply elem_of_cons in Hw as [->|Hw]; [lia|]. by apply elem_of_nil in Hw. }
  unfold merge_id. assert ((w <? ll) || (w <? rl) = false) as -> by lia.
  rewrite (land_left_mask w l), (land_left_mask w r), !N2Nat.id by (done || lia). do 2 f_equal.
  2:{ unfold uadd. apply N.mod_small. change (2 ^ 8) with 256. lia. }
  rewrite N.shiftr_div_pow2. set (h := 2 ^ (w - ll)). set (b := _ / 2 ^ ll).
  assert (Hh : h <> 0) by (apply N.pow_nonzero; lia).
  assert (Hb : b < h).
  { apply N.div_lt_upper_bound; [apply N.pow_nonzero; lia|]. unfold h. rewrite <- N.pow_add_r.
    replace (ll + (w - ll)) with w by lia. eapply N.le_lt_trans; [|exact Hr].
    rewrite N.mul_comm. apply N.mul_div_le. apply N.pow_nonzero. lia. }
  assert (Hd : N.land (l / h * h) b = 0).
  { unfold h in *. rewrite <- N.shiftl_mul_pow2. apply N.bits_inj_0. intros j. rewrite N.land_spec.
    destruct (N.le_gt_cases (w - ll) j) as [H|H].
    - assert (E : N.testbit b j = false); [|rewrite E; apply andb_false_r].
      destruct (N.eq_dec b 0) as [->|H0]; [apply N.bits_0|]. apply N.bits_above_log2.
      apply N.log2_lt_pow2 in Hb; lia.
    - by rewrite N.shiftl_spec_low. }
  rewrite <- N.lxor_lor by done. by rewrite N.add_nocarry_lxor.
Qed.

(** As prefixes: concatenation, when both fit. *)
Lemma C72_merge_id_concatenates_pf : forall w l ll r rl, w ∈ [16; 32; 64] -> ll + rl <= w ->
  exists v, merge_id w l ll r rl = Ok (v, ll + rl) /\
    prefix w (MyId v (ll + rl)) = prefix w (MyId l ll) ++ prefix w (MyId r rl).
Proof.
  intros w l ll r rl Hw Hs.
  assert (Hw64 : w <= 64).
  { apply elem_of_cons in Hw as [->|Hw]; [lia|]. apply elem_of_cons in Hw as [->|Hw]; [lia|].
    apply elem_of_cons in Hw as [->|Hw]; [lia|]. by apply elem_of_nil in Hw. }
  unfold merge_id. assert ((w <? ll) || (w <? rl) = false) as -> by lia. eexists. split.
  - do 2 f_equal. unfold uadd. apply N.mod_small. change (2 ^ 8) with 256. lia.
  - unfold prefix. cbn [i_id i_len]. rewrite N2Nat.inj_add.
    pose proof (bits_merge w l r (N.to_nat ll) (N.to_nat rl)) as H. rewrite !N2Nat.id in H. by apply H.
Qed.

(** A length above the width panics. *)
Lemma C72_too_long_panics_pf : forall w l ll r rl, w < ll \/ w < rl -> merge_id w l ll r rl = Panic.
Proof. intros w l ll r rl H. unfold merge_id. by assert ((w <? ll) || (w <? rl) = true) as -> by lia. Qed.
