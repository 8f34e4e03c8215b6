(** Lemmas for the concurrent executions of table16/32/64 and iptable. *)
From Verif Require Import IdxTableProofs TableNProofs IPTableProofs IdxConcProofs.
From Verif Require Export TableConcSpec.
From Coq Require Import Lia ZifyBool ZifyNat ZifyN.
From Verif Require Import IdxTableProofs TableNModel.

(* ------------------------------------------------------------------ logs *)
Lemma call_of_map {X Y} (f : X -> Y) todo c : call_of (map (map f) todo) c = f <$> call_of todo c.
Proof.
  unfold call_of. change (map (map f) todo) with (map f <$> todo). rewrite list_lookup_fmap. destruct (todo !! c.1) as [ps|]; cbn; [|done].
  change (map f ps) with (f <$> ps). by rewrite list_lookup_fmap.
Qed.
Lemma calls_of_in {Op R} c x (l : list (cid * (Op * R))) : x ∈ calls_of c l <-> (c, x) ∈ l.
Proof.
  unfold calls_of. rewrite elem_of_list_fmap. setoid_rewrite elem_of_list_filter. split.
  - intros ([c' y] & -> & <- & H). done.
  - intros H. exists (c, x). done.
Qed.
Lemma calls_of_nodup {Op R} (l : list (cid * (Op * R))) :
  (forall c x, (c, x) ∈ l -> (length (calls_of c l) <= 1)%nat) -> NoDup l.*1.
Proof.
  induction l as [|[c x] l IH]; intros H; cbn; [constructor|].
  assert (Hno : forall y, (c, y) ∉ l).
  { intros y Hy. specialize (H c x (elem_of_list_here _ _)). apply calls_of_in in Hy.
    change ((c, x) :: l) with ([(c, x)] ++ l) in H. rewrite calls_of_app, calls_of_one in H.
    destruct (calls_of c l); [by apply elem_of_nil in Hy|cbn in H; lia]. }
  constructor.
  - intros Hc. apply elem_of_list_fmap in Hc as ([c' y] & E & Hy). cbn in E. subst c'. by apply (Hno y).
  - apply IH. intros c' y Hy. specialize (H c' y (elem_of_list_further _ _ _ Hy)).
    change ((c, x) :: l) with ([(c, x)] ++ l) in H. rewrite calls_of_app, app_length in H. lia.
Qed.
Lemma calls_of_two {Op R} c x cs y (l : list (cid * (Op * R))) : calls_of c l = x :: cs -> y ∈ cs ->
  exists p q, (p < q)%nat /\ l !! p = Some (c, x) /\ l !! q = Some (c, y).
Proof.
  intros H Hy. revert H. induction l as [|[c' z] l IH]; [done|]. intros H.
  change ((c', z) :: l) with ([(c', z)] ++ l) in H. rewrite calls_of_app in H. destruct (decide (c' = c)) as [->|Hn].
  - rewrite calls_of_one in H. injection H as -> H.
    assert (Hin : (c, y) ∈ l) by (apply calls_of_in; by rewrite H).
    apply elem_of_list_lookup in Hin as [q Hq]. exists 0%nat, (S q). split; [lia|]. done.
  - rewrite calls_of_other in H by done. destruct (IH H) as (p & q & Hpq & Hp & Hq). exists (S p), (S q). split; [lia|]. done.
Qed.

Section log.
Context {T : Type}.
Implicit Types (l : list (cid * (op T * out T))) (d : table T).
(** The table before the entry number p. *)
Definition at_log d0 l (p : nat) : table T := fst (run d0 (log_ops (take p l))).
Lemma at_log_S d0 l p c o x : l !! p = Some (c, (o, x)) -> at_log d0 l (S p) = fst (step (at_log d0 l p) o).
Proof.
  intros Hp. unfold at_log. rewrite (take_S_r _ _ _ Hp). unfold log_ops. rewrite fmap_app, run_app.
  destruct (run d0 _) as [d1 xs]. cbn. by destruct (step d1 o).
Qed.
Lemma at_log_end d0 l d xs : run d0 (log_ops l) = (d, xs) -> at_log d0 l (length l) = d.
Proof. intros H. unfold at_log. by rewrite firstn_all, H. Qed.
Lemma run_results_length d os : length (snd (run d os)) = length os.
Proof.
  revert d. induction os as [|o os IH]; intros d; [done|]. cbn. destruct (step d o) as [d1 x].
  specialize (IH d1). destruct (run d1 os). cbn in *. lia.
Qed.
Lemma at_log_result d0 l d p c o x : run d0 (log_ops l) = (d, log_results l) ->
  l !! p = Some (c, (o, x)) -> x = snd (step (at_log d0 l p) o).
Proof.
  intros Hr Hp. pose proof (take_drop_middle _ _ _ Hp) as Hl. rewrite <- Hl in Hr. unfold log_ops, log_results in Hr.
  rewrite !fmap_app, run_app, !fmap_cons in Hr. unfold at_log, log_ops. cbn [fst snd] in Hr.
  destruct (run d0 ((fun e => fst (snd e)) <$> take p l)) as [d1 xs] eqn:E1. cbn [run] in Hr. cbn [fst].
  pose proof (run_results_length d0 ((fun e => fst (snd e)) <$> take p l)) as Hlen. rewrite E1 in Hlen. cbn [snd] in Hlen.
  destruct (step d1 o) as [d2 y] eqn:E2. destruct (run d2 _) as [d3 ys]. injection Hr as _ Hr.
  apply app_inj_1 in Hr as [_ Hr]; [|by rewrite Hlen, !fmap_length]. injection Hr as -> _. done.
Qed.
(** What every entry from p on keeps still holds before the entry q. *)
Lemma at_log_keeps (X : table T -> Prop) d0 l p q :
  (p <= q <= length l)%nat -> X (at_log d0 l p) ->
  (forall n c o x d, (p <= n < q)%nat -> l !! n = Some (c, (o, x)) -> X d -> X (fst (step d o))) -> X (at_log d0 l q).
Proof.
  intros [Hpq Hq] Hp Hk. induction Hpq as [|q Hpq IH]; [done|].
  destruct (lookup_lt_is_Some_2 l q) as [[c [o x]] Hl]; [lia|]. rewrite (at_log_S _ _ _ _ _ _ Hl).
  eapply Hk; [|done|]; [lia|]. apply IH; [lia|]. intros. eapply Hk; [|done|done]; lia.
Qed.
(** Methods called by clients that only call such methods. *)
Lemma follows_only {A} (P : op T -> Prop) (p q : client (table T) (out T) (op T) A) cs o x : follows p cs q -> only P p -> (o, x) ∈ cs -> P o.
Proof.
  induction 1 as [p|o' k r cs q H IH|k d cs q H IH]; intros Hp Ho; cbn in Hp.
  - by apply elem_of_nil in Ho.
  - apply elem_of_cons in Ho as [[= -> ->]|Ho]; [apply Hp|]. apply IH; [apply Hp|done].
  - apply IH; [apply Hp|done].
Qed.
Lemma log_only {A} (P : op T -> Prop) d0 (todo : list (list (client (table T) (out T) (op T) A))) s l d c o x :
  explains step d0 todo s l d -> (forall c p, call_of todo c = Some p -> only P p) -> (c, (o, x)) ∈ l -> P o.
Proof.
  intros He Ho Hl. destruct (ex_started _ _ _ _ _ _ He _ _ Hl) as (_ & p & q & Hp & Hf).
  eapply follows_only; [exact Hf|by eapply Ho|]. by apply calls_of_in.
Qed.
Lemma run_follows d os xs d' : run d os = (d', xs) -> seq_run step d os = (d', xs).
Proof. by rewrite seq_run_step. Qed.
End log.

(* ------------------------------------------------------------------ table16/32/64 *)
Section tn.
Context {L : Type} (c : tn_cfg) (a b : N) (r : tableN L).
Hypothesis Hg : tn_good c.
Hypothesis Hab : a <= b < 2 ^ tn_w c.
Hypothesis Hr : wfN c a b r.

Local Lemma Hshape : tn_c r = c /\ tn_start r = a /\ tn_end r = b.
Proof. destruct Hr as (? & ? & ? & _). done. Qed.
Local Lemma wfN_with d : wfN c a b (tn_with r d) <->
  IdxTableProofs.wf (tn_sz c a b) d /\ (forall k e, t_map d !! k = Some e ->
     te_id (e_data e) = k /\ te_len (e_data e) = tn_idlen c /\ k <= b - a /\ a <= b).
Proof. destruct Hshape as (? & ? & ?). unfold wfN, tn_with. cbn. tauto. Qed.

Lemma validate_ok id : tn_validate r id = Ok tt ->
  a <= uwrap (tn_w c) id <= b /\ tn_index r id = uwrap (tn_w c) id - a /\ (id < 2 ^ 64 -> uwrap (tn_w c) id = id).
Proof.
  destruct Hg as (Hg1 & Hg2 & Hg3 & Hg4). destruct Hshape as (Hc & Hs & He). unfold tn_validate, tn_index. rewrite Hc, Hs, He.
  intros Hv.
  assert (H : (match tn_limit c with Some lim => lim <? id | None => false end) = false /\ a <= uwrap (tn_w c) id <= b).
  { destruct (match tn_limit c with Some lim => lim <? id | None => false end); [done|].
    destruct (N.ltb_spec (uwrap (tn_w c) id) a); [done|]. destruct (N.ltb_spec b (uwrap (tn_w c) id)); [done|]. split; [done|lia]. }
  clear Hv. destruct H as [Hl Hin]. split; [done|]. split.
  - rewrite usub_small by lia. done.
  - intros Hid. apply uwrap_small. destruct (tn_limit c) as [lim|]; [apply N.ltb_ge in Hl; lia|lia].
Qed.
Lemma validate_uwrap id : tn_validate r id = Ok tt -> tn_validate r (uwrap (tn_w c) id) = Ok tt /\ tn_index r (uwrap (tn_w c) id) = tn_index r id.
Proof.
  intros Hv. destruct (validate_ok _ Hv) as (Hin & Hi & _). destruct Hg as (Hg1 & Hg2 & Hg3 & Hg4).
  split.
  - rewrite (tn_validate_spec c a b) by (done || lia).
    destruct (N.leb_spec a (uwrap (tn_w c) id)), (N.leb_spec (uwrap (tn_w c) id) b); cbn; (done || lia).
  - rewrite Hi. apply (tn_index_spec c a b); (done || lia).
Qed.
Lemma stored_eq k l : k <= b - a -> tn_stored r k l = TEntry k (tn_idlen c) l.
Proof. intros Hk. unfold tn_stored. destruct Hshape as (-> & _). rewrite uwrap_small by lia. done. Qed.

(** The methods the calls use. *)
Definition tnop (rel upd : bool) (o : op (tentry L)) : Prop :=
  match o with
  | OGet _ | OIsFree _ | OHas _ | OSize | OFindFree | OGetAll | OIterate => True
  | OClaim k e => k <= b - a /\ exists l, e = TEntry k (tn_idlen c) l
  | OUpdate k e => upd = true /\ k <= b - a /\ exists l, e = TEntry k (tn_idlen c) l
  | ORelease k => rel = true
  | _ => False
  end.
Lemma claim_only rel upd id l k : (forall x, only (tnop rel upd) (k x)) -> only (tnop rel upd) (c_claim r id l k).
Proof.
  intros Hk. unfold c_claim. destruct (tn_validate r id) as [[]|e|] eqn:Hv; [|apply Hk..].
  destruct (validate_ok _ Hv) as (Hin & Hi & _). cbn. split; [done|]. intros x. destruct (negb (as_bool x)); [apply Hk|].
  cbn. split; [|intros y; apply Hk]. split; [lia|]. rewrite stored_eq by lia. eauto.
Qed.
Lemma by_label_only rel upd sel keys es : only (tnop rel upd) (c_by_label r sel keys es).
Proof. revert es. induction keys as [|k keys IH]; intros es; [done|]. cbn. intros d. destruct (t_map d !! k); [apply IH|done]. Qed.
Lemma tn_call_only rel upd o : (t_releases o = true -> rel = true) -> (t_updates o = true -> upd = true) ->
  only (tnop rel upd) (tn_call r o).
Proof.
  intros H1 H2. destruct o as [id|id l|l|id|id l| |id|id| | |sel]; cbn [tn_call t_releases t_updates] in *.
  - destruct (tn_validate r id); cbn; auto.
  - apply claim_only. done.
  - unfold c_find_free. cbn. split; [done|]. intros x. destruct (as_id x) as [k|e|]; cbn; [|done..]. apply claim_only. done.
  - destruct (tn_validate r id); cbn; auto.
  - destruct (tn_validate r id) as [[]|e|] eqn:Hv; [|done..]. destruct (validate_ok _ Hv) as (Hin & Hi & _). cbn.
    split; [|done]. split; [by apply H2|]. split; [lia|]. rewrite stored_eq by lia. eauto.
  - done.
  - destruct (tn_validate r id); cbn; auto.
  - destruct (tn_validate r id); cbn; auto.
  - cbn. auto.
  - cbn. auto.
  - cbn. split; [done|]. intros _. split; [done|]. intros x. destruct (as_ids x); [apply by_label_only|done..].
Qed.

Lemma tnop_step rel upd d o : tnop rel upd o -> t_size (fst (step d o)) = t_size d /\
  (t_map (fst (step d o)) = t_map d \/
   (exists k e, (tnop rel upd (OClaim k e) \/ (upd = true /\ is_Some (t_map d !! k))) /\ (upd = false -> t_map d !! k = None) /\
     k <= b - a /\ te_id e = k /\ te_len e = tn_idlen c /\ validate d k = Ok tt /\ t_map (fst (step d o)) = <[k := NewEntry k e]> (t_map d)) \/
   (rel = true /\ exists k, t_map (fst (step d o)) = delete k (t_map d))).
Proof.
  destruct o; cbn [tnop]; intros H; try done; try (split; [done|left; done]).
  - destruct H as (Hk & l & ->). cbn [step]. unfold claim, add. cbn [e_id].
    destruct (validate d id) as [[]|e|] eqn:Hv; [|split; [done|by left]..].
    unfold is_free. destruct (t_map d !! id) eqn:Hd; cbn; [split; [done|by left]|]. split; [done|].
    right. left. exists id, (TEntry id (tn_idlen c) l). split; [left; cbn; eauto|]. done.
  - cbn [step]. unfold release, delete_. destruct (validate d id); (split; [done|]); [|by left..].
    right. right. split; [done|]. by exists id.
  - destruct H as (-> & Hk & l & ->). cbn [step]. unfold update_op, update. cbn [e_id].
    destruct (validate d id) as [[]|e|] eqn:Hv; [|split; [done|by left]..].
    unfold is_free. destruct (t_map d !! id) eqn:Hd; cbn; [|split; [done|by left]]. split; [done|].
    right. left. exists id, (TEntry id (tn_idlen c) l). split; [right; split; [done|by eauto]|]. done.
Qed.

Lemma tnop_wf rel upd d o : tnop rel upd o -> wfN c a b (tn_with r d) -> wfN c a b (tn_with r (fst (step d o))).
Proof.
  intros Ho Hw. apply wfN_with in Hw as [Hw Hk]. apply wfN_with. split; [apply step_wf; [done|by apply tn_sz_lt]|].
  destruct (tnop_step _ _ d o Ho) as (_ & [->|[(k & e & _ & _ & H1 & H2 & H3 & _ & ->)|(_ & k & ->)]]); [done| |].
  - intros k' e'. destruct (decide (k' = k)) as [->|Hn].
    + rewrite lookup_insert. intros [= <-]. cbn. repeat split; (done || lia).
    + rewrite lookup_insert_ne by done. apply Hk.
  - intros k' e' H. apply lookup_delete_Some in H as [_ H]. by apply Hk.
Qed.
Lemma tnop_stays upd d o k : tnop false upd o -> is_Some (t_map d !! k) -> is_Some (t_map (fst (step d o)) !! k).
Proof.
  intros Ho Hk. destruct (tnop_step _ _ d o Ho) as (_ & [->|[(k' & e & _ & _ & _ & _ & _ & _ & ->)|(? & _)]]); [done| |done].
  destruct (decide (k' = k)) as [->|]; [rewrite lookup_insert; eauto|by rewrite lookup_insert_ne].
Qed.
Lemma tnop_keeps d o k x : tnop false false o -> t_map d !! k = Some x -> t_map (fst (step d o)) !! k = Some x.
Proof.
  intros Ho Hk. destruct (tnop_step _ _ d o Ho) as (_ & [->|[(k' & e & _ & Hn & _ & _ & _ & _ & ->)|(? & _)]]); [done| |done].
  specialize (Hn eq_refl). destruct (decide (k' = k)) as [->|]; [congruence|by rewrite lookup_insert_ne].
Qed.

(** What the claiming calls do. *)
Lemma follows_ret {A} (x y : A) (cs : list (op (tentry L) * out (tentry L))) :
  follows (CRet x : client (table (tentry L)) (out (tentry L)) (op (tentry L)) A) cs (CRet y) -> cs = [] /\ x = y.
Proof. inversion 1; done. Qed.
Lemma follows_ccall {A} o k (z : A) cs :
  follows (CCall o k : client (table (tentry L)) (out (tentry L)) (op (tentry L)) A) cs (CRet z) ->
  exists x cs', cs = (o, x) :: cs' /\ follows (k x) cs' (CRet z).
Proof. inversion 1; subst; eauto. Qed.
Lemma follows_claim id l (f : res unit -> tout L) cs z :
  follows (c_claim r id l (fun x => CRet (f x))) cs (CRet z) ->
  (exists e, tn_validate r id = Err e /\ cs = [] /\ z = f (Err e)) \/
  (tn_validate r id = Ok tt /\
   ((exists x, as_bool x = false /\ cs = [(OIsFree (tn_index r id), x)] /\ z = f (Err EAlreadyClaimed)) \/
    (exists x y, as_bool x = true /\ z = f (as_unit y) /\
      cs = [(OIsFree (tn_index r id), x); (OClaim (tn_index r id) (tn_stored r (tn_index r id) l), y)]))).
Proof.
  unfold c_claim. destruct (tn_validate r id) as [[]|e|] eqn:Hv.
  - intros H. apply follows_ccall in H as (x & cs' & -> & H). right. split; [done|].
    destruct (as_bool x) eqn:Hx; cbn [negb] in H.
    + right. apply follows_ccall in H as (y & cs'' & -> & H). apply follows_ret in H as [-> <-]. eauto.
    + left. apply follows_ret in H as [-> <-]. eauto.
  - intros H. apply follows_ret in H as [-> <-]. left. eauto.
  - exfalso. unfold tn_validate in Hv. destruct (match tn_limit (tn_c r) with Some lim => lim <? id | None => false end); [done|].
    destruct (_ <? _); [done|]. by destruct (_ <? _).
Qed.
Lemma follows_claim_free l cs z : follows (tn_call r (TClaimFree l)) cs (CRet z) ->
  exists y cs', cs = (OFindFree, y) :: cs' /\
    match as_id y with
    | Ok k => follows (c_claim r (tn_from_index r k) l (fun x =>
            CRet (TREntry (do _u <- x; Ok (TEntry (uwrap (tn_w (tn_c r)) (tn_from_index r k)) (tn_idlen (tn_c r)) l))))) cs' (CRet z)
    | Err e => cs' = [] /\ z = TREntry (Err e)
    | Panic => cs' = [] /\ z = TREntry Panic
    end.
Proof.
  cbn [tn_call]. unfold c_find_free. intros H. apply follows_ccall in H as (y & cs' & -> & H). exists y, cs'. split; [done|].
  destruct (as_id y); cbn [rbind] in H; [done|apply follows_ret in H as [-> <-]; done..].
Qed.

Lemma claim_logged o cs z id l : follows (tn_call r o) cs (CRet z) -> claims o z = Some (id, l) ->
  exists y, tn_validate r id = Ok tt /\ as_unit y = Ok tt /\ (OClaim (tn_index r id) (tn_stored r (tn_index r id) l), y) ∈ cs.
Proof.
  intros H Hc. destruct o as [i|i l'|l'|i|i l'| |i|i| | |sel]; try done; cbn [claims] in Hc.
  - cbn [tn_call] in H. destruct z as [[[]|e|]| | | | |]; try done. injection Hc as -> ->.
    destruct (follows_claim _ _ _ _ _ H) as [(e & _ & _ & [=])|(Hv & [(x & _ & _ & [=])|(x & y & _ & Hz & ->)])].
    exists y. injection Hz as Hz. split; [done|]. split; [done|]. right. left.
  - destruct z as [|[e|e|]| | | |]; try done. injection Hc as <- ->.
    destruct (follows_claim_free _ _ _ H) as (y & cs' & -> & Hf). destruct (as_id y) as [k|e'|]; [|by destruct Hf as [_ ?]..].
    destruct (follows_claim _ _ _ _ _ Hf) as [(e' & _ & _ & [=])|(Hv & [(x & _ & _ & [=])|(x & u & _ & Hz & ->)])].
    destruct (as_unit u) as [[]|?|] eqn:Hu; try done. cbn in Hz. injection Hz as ->. cbn [te_id].
    destruct Hshape as (-> & _). destruct (validate_uwrap _ Hv) as [Hv' ->]. exists u. split; [done|]. split; [done|]. right. right. left.
Qed.
End tn.

Section claim.
Context {T : Type}.
Implicit Types (l : list (cid * (op T * out T))) (d : table T).
Lemma claim_wins d0 l d p c k e y : run d0 (log_ops l) = (d, log_results l) ->
  l !! p = Some (c, (OClaim k e, y)) -> as_unit y = Ok tt ->
  t_map (at_log d0 l p) !! k = None /\ validate (at_log d0 l p) k = Ok tt /\
  at_log d0 l (S p) = Table (t_size (at_log d0 l p)) (<[k := NewEntry k e]> (t_map (at_log d0 l p))).
Proof.
  intros Hrun Hp Hy. rewrite (at_log_S _ _ _ _ _ _ Hp). rewrite (at_log_result _ _ _ _ _ _ _ Hrun Hp) in Hy.
  cbn [step] in *. unfold claim, add in *. cbn [e_id] in *.
  destruct (validate (at_log d0 l p) k) as [[]|x|]; [|done..]. unfold is_free in *.
  destruct (t_map (at_log d0 l p) !! k) eqn:Hk; done.
Qed.
Lemma claim_result d0 l d p c k e y : run d0 (log_ops l) = (d, log_results l) ->
  l !! p = Some (c, (OClaim k e, y)) -> as_unit y <> Ok tt -> validate (at_log d0 l p) k = Ok tt -> is_Some (t_map (at_log d0 l p) !! k).
Proof.
  intros Hrun Hp Hy Hv. rewrite (at_log_result _ _ _ _ _ _ _ Hrun Hp) in Hy.
  cbn [step] in *. unfold claim, add in *. cbn [e_id] in *. rewrite Hv in Hy. unfold is_free in *.
  destruct (t_map (at_log d0 l p) !! k) eqn:Hk; [eauto|done].
Qed.
End claim.

(* ------------------------------------------------------------------ no panics *)
(** The keys of a set of fewer than 2^64 elements. *)
Definition few (X : N -> Prop) : Prop := exists ks : list N, N.of_nat (length ks) < 2 ^ 64 /\ forall k, X k -> k ∈ ks.
Lemma few_below B : B + 1 < 2 ^ 64 -> few (fun k => k <= B).
Proof.
  intros HB. exists (N.of_nat <$> seq 0 (N.to_nat (B + 1))). split; [rewrite fmap_length, seq_length; lia|].
  intros k Hk. apply elem_of_list_fmap. exists (N.to_nat k). split; [lia|]. apply elem_of_seq. lia.
Qed.

Section calm.
Context {T : Type} (X : N -> Prop) (rel : bool).
Hypothesis HB : few X.
Implicit Types (d : table T).
(** What the other goroutines may do to the table. *)
Definition calm d d' : Prop :=
  t_size d' = t_size d /\ (rel = false -> forall k, is_Some (t_map d !! k) -> is_Some (t_map d' !! k)) /\
  (forall k, is_Some (t_map d' !! k) -> is_Some (t_map d !! k) \/ X k).
Definition small d : Prop := t_size d < 2 ^ 64 /\ forall k, is_Some (t_map d !! k) -> X k.
Lemma calm_refl d : calm d d.
Proof. split; [done|]. split; [done|]. intros k. by left. Qed.
Lemma calm_trans d1 d2 d3 : calm d1 d2 -> calm d2 d3 -> calm d1 d3.
Proof.
  intros (H1 & H2 & H3) (H4 & H5 & H6). split; [congruence|]. split; [eauto|].
  intros k Hk. destruct (H6 k Hk) as [Hk'|]; [|by right]. by apply H3.
Qed.
Lemma calm_store e d : X (e_id e) -> calm d (Table (t_size d) (<[e_id e := e]> (t_map d))).
Proof.
  intros He. split; [done|]. cbn. split.
  - intros _ k Hk. destruct (decide (e_id e = k)) as [->|]; [rewrite lookup_insert; eauto|by rewrite lookup_insert_ne].
  - intros k. destruct (decide (e_id e = k)) as [<-|]; [by right|]. rewrite lookup_insert_ne by done. by left.
Qed.
Lemma calm_delete : rel = true -> may_delete calm.
Proof.
  intros Hrel id d. split; [done|]. split; [by rewrite Hrel|]. cbn. intros k [x Hx].
  apply lookup_delete_Some in Hx as [_ Hx]. left. eauto.
Qed.
Lemma calm_small d d' : small d -> calm d d' -> small d'.
Proof. intros [H1 H2] (H3 & _ & H4). split; [by rewrite H3|]. intros k Hk. destruct (H4 k Hk); auto. Qed.

Lemma small_size d : small d -> N.of_nat (size (t_map d)) < 2 ^ 64.
Proof.
  intros [_ Hk]. destruct HB as (ks & Hlen & Hks).
  assert (Hsub : dom (t_map d) ⊆ (list_to_set ks : gset N)).
  { intros x Hx. apply elem_of_dom in Hx. apply elem_of_list_to_set, Hks, Hk, Hx. }
  apply subseteq_size in Hsub. rewrite size_dom in Hsub.
  assert (size (list_to_set ks : gset N) <= length ks)%nat; [|lia].
  clear. induction ks as [|x ks IH]; cbn [list_to_set length]; [by rewrite size_empty|].
  rewrite size_union_alt, size_singleton. pose proof (subseteq_size (list_to_set ks ∖ {[x]} : gset N) (list_to_set ks) ltac:(set_solver)). lia.
Qed.
Lemma small_iterate d : small d -> exists ks, iter_all (iterate d) = Ok ks /\ forall k, k ∈ ks -> is_Some (t_map d !! k).
Proof.
  intros Hs. destruct (iter_keys_spec d) as [_ Hin]. exists (it_keys (iterate d)). split.
  - apply (iter_all_start (it_keys (iterate d))). rewrite iter_keys_length. by apply small_size.
  - intros k Hk. apply claimed_Some. by apply Hin.
Qed.
Lemma small_get_all d : small d -> exists es, get_all d = Ok es /\ Forall is_Some es.
Proof.
  intros Hs. destruct (iter_keys_spec d) as [_ Hin]. eexists. split.
  - unfold get_all. rewrite (drain_values_spec _ _ _ 0); [done| |lia|apply at_pos_0|lia]. rewrite iter_keys_length. by apply small_size.
  - rewrite drop_0. apply Forall_fmap, Forall_forall. intros k Hk. cbn. apply claimed_Some. by apply Hin.
Qed.
Lemma small_find_free d : small d -> find_free d = Err ENoFree \/ exists k, find_free d = Ok k /\ k < t_size d.
Proof.
  intros [Hs _]. unfold find_free.
  pose proof (free_keys_length d) as Hlen.
  rewrite (iter_next_pos _ 0); [|lia|lia|apply at_pos_0].
  case_bool_decide as Hb; [|by left]. right. unfold iter_id. cbn [it_keys it_current].
  destruct (it_keys (iterate_free d)) as [|x l] eqn:Hkeys; [cbn in Hb; lia|]. exists x. split; [done|].
  assert (Hx : x ∈ it_keys (iterate_free d)) by (rewrite Hkeys; left). apply free_keys_elem in Hx as [? _]. done.
Qed.
Lemma validate_no_panic d k : validate d k <> Panic.
Proof. unfold validate. by destruct (_ <? _). Qed.
Lemma get_no_panic d k : get d k <> Panic.
Proof. unfold get. pose proof (validate_no_panic d k). destruct (validate d k); cbn; [|done..]. by destruct (t_map d !! k). Qed.
Lemma claim_no_panic d k x : snd (claim d k x) <> Panic.
Proof. unfold claim, add. cbn [e_id]. pose proof (validate_no_panic d k). destruct (validate d k); [|done..]. by destruct (negb _). Qed.
Lemma release_no_panic d k : snd (release d k) <> Panic.
Proof. unfold release, delete_. pose proof (validate_no_panic d k). by destruct (validate d k). Qed.
Lemma update_no_panic d k x : snd (update_op d k x) <> Panic.
Proof. unfold update_op, update. cbn [e_id]. pose proof (validate_no_panic d k). destruct (validate d k); [|done..]. by destruct (is_free _ _). Qed.
End calm.

Section tn_safe.
Context {L : Type} (X : N -> Prop) (rel : bool) (r : tableN L).
Hypothesis HB : few X.
Local Notation safe := (safe method (calm (T := tentry L) X rel) (fun x : tout L => t_panicked x = false)).
Local Notation small := (small (T := tentry L) X).
Local Ltac call d' Hd Hs := intros d' Hd; assert (small d') as Hs by (by eapply calm_small); rewrite alone_method; cbn [step fst snd].

Lemma c_claim_safe id l (k : res unit -> client (table (tentry L)) (out (tentry L)) (op (tentry L)) (tout L)) d :
  small d -> (forall v d, v <> Panic -> safe (k v) d) -> safe (c_claim r id l k) d.
Proof.
  intros Hs Hk. unfold c_claim. destruct (tn_validate r id) as [u|e|] eqn:Hv; [| |]; [|by apply Hk|].
  - cbn [ConcProofs.safe]. call d' Hd Hs'. cbn [as_bool]. destruct (negb _); [by apply Hk|].
    cbn [ConcProofs.safe]. call d'' Hd' Hs''. pose proof (claim_no_panic d'' (tn_index r id) (tn_stored r (tn_index r id) l)) as Hp.
    destruct (claim d'' _ _) as [d3 v]. cbn [snd fst as_unit] in *. by apply Hk.
  - exfalso. unfold tn_validate in Hv. destruct (match tn_limit (tn_c r) with Some lim => lim <? id | None => false end); [done|].
    destruct (_ <? _); [done|]. by destruct (_ <? _).
Qed.
Lemma c_by_label_safe sel keys es d : rel = false -> (forall k, k ∈ keys -> is_Some (t_map d !! k)) -> safe (c_by_label r sel keys es) d.
Proof.
  intros Hrel. revert es d. induction keys as [|k keys IH]; intros es d Hk; [done|]. cbn [c_by_label ConcProofs.safe].
  intros d' (_ & Hd & _). specialize (Hd Hrel). destruct (Hd k) as [e He]; [apply Hk; left|]. rewrite He. apply IH.
  intros k' Hk'. apply Hd, Hk. by right.
Qed.
Lemma get_all_loop_ok es : Forall is_Some es -> exists xs, tn_get_all_loop r es = Ok xs.
Proof.
  induction 1 as [|e es [x ->] Hes [xs IH]]; [by exists []|]. cbn [tn_get_all_loop]. rewrite IH. cbn. eauto.
Qed.
Lemma tn_call_safe o d : small d -> (rel = true -> t_by_label o = false) -> safe (tn_call r o) d.
Proof.
  intros Hs Hl.
  assert (Hval : forall id, tn_validate r id = Ok tt \/ exists e, tn_validate r id = Err e).
  { intros id. unfold tn_validate. destruct (match tn_limit (tn_c r) with Some lim => lim <? id | None => false end); [eauto|].
    destruct (_ <? _); [eauto|]. destruct (_ <? _); eauto. }
  destruct o as [id|id l|l|id|id l| |id|id| | |sel]; cbn [tn_call].
  - destruct (Hval id) as [->|[e ->]]; [|done]. cbn [ConcProofs.safe]. call d' Hd Hs'. cbn [as_entry].
    pose proof (get_no_panic d' (tn_index r id)). by destruct (get d' _).
  - apply c_claim_safe; [done|]. intros v d' Hv. cbn. by destruct v.
  - unfold c_find_free. cbn [ConcProofs.safe]. call d' Hd Hs'. cbn [as_id].
    destruct (small_find_free X d' Hs') as [->|(k & -> & _)]; cbn [rbind]; [done|]. apply c_claim_safe; [done|].
    intros v d'' Hv. cbn. by destruct v.
  - destruct (Hval id) as [->|[e ->]]; [|done]. cbn [ConcProofs.safe]. call d' Hd Hs'.
    pose proof (release_no_panic d' (tn_index r id)). destruct (release d' _) as [d2 v]. cbn in *. by destruct v.
  - destruct (Hval id) as [->|[e ->]]; [|done]. cbn [ConcProofs.safe]. call d' Hd Hs'.
    pose proof (update_no_panic d' (tn_index r id) (tn_stored r (tn_index r id) l)). destruct (update_op d' _ _) as [d2 v]. cbn in *. by destruct v.
  - cbn [ConcProofs.safe]. call d' Hd Hs'. done.
  - destruct (Hval id) as [->|[e ->]]; [|done]. cbn [ConcProofs.safe]. call d' Hd Hs'. done.
  - destruct (Hval id) as [->|[e ->]]; [|done]. cbn [ConcProofs.safe]. call d' Hd Hs'. done.
  - unfold c_find_free. cbn [ConcProofs.safe]. call d' Hd Hs'. cbn [as_id].
    by destruct (small_find_free X d' Hs') as [->|(k & -> & _)].
  - cbn [ConcProofs.safe]. call d' Hd Hs'. call d'' Hd' Hs''. cbn [as_values].
    destruct (small_get_all X HB d'' Hs'') as (es & -> & Hes). cbn [rbind]. by destruct (get_all_loop_ok es Hes) as [xs ->].
  - cbn [ConcProofs.safe]. call d' Hd Hs'. call d'' Hd' Hs''. cbn [as_ids].
    destruct (small_iterate X HB d'' Hs'') as (ks & -> & Hks). apply c_by_label_safe; [|done].
    destruct rel; [|done]. by specialize (Hl eq_refl).
Qed.

(** The methods the calls of a table use, and the ids they name. *)
Definition xnop (upd : bool) (o : op (tentry L)) : Prop :=
  match o with
  | OGet _ | OIsFree _ | OHas _ | OSize | OFindFree | OGetAll | OIterate => True
  | OClaim k _ => X k
  | OUpdate k _ => upd = true /\ X k
  | ORelease k => rel = true
  | _ => False
  end.
Definition tn_names (o : top L) (k : N) : Prop :=
  match o with
  | TClaim id _ | TUpdate id _ => tn_validate r id = Ok tt /\ tn_index r id = k
  | TClaimFree _ => exists id, tn_validate r id = Ok tt /\ tn_index r id = k
  | _ => False
  end.
Lemma x_claim_only upd id l k : (tn_validate r id = Ok tt -> X (tn_index r id)) -> (forall x, only (xnop upd) (k x)) -> only (xnop upd) (c_claim r id l k).
Proof.
  intros Hi Hk. unfold c_claim. destruct (tn_validate r id) as [[]|e|] eqn:Hv; [|apply Hk..].
  cbn. split; [done|]. intros x. destruct (negb (as_bool x)); [apply Hk|]. cbn. split; [by apply Hi|done].
Qed.
Lemma x_call_only upd o : (t_releases o = true -> rel = true) -> (t_updates o = true -> upd = true) ->
  (forall k, tn_names o k -> X k) -> only (xnop upd) (tn_call r o).
Proof.
  intros H1 H2 Hi. destruct o as [id|id l|l|id|id l| |id|id| | |sel]; cbn [tn_call t_releases t_updates tn_names] in *.
  - destruct (tn_validate r id); cbn; auto.
  - apply x_claim_only; [|done]. intros Hv. by apply Hi.
  - unfold c_find_free. cbn. split; [done|]. intros x. destruct (as_id x) as [k|e|]; cbn; [|done..]. apply x_claim_only; [|done]. intros Hv. apply Hi. eauto.
  - destruct (tn_validate r id); cbn; auto.
  - destruct (tn_validate r id) as [[]|e|] eqn:Hv; [|done..]. cbn. split; [|done]. split; [by apply H2|]. by apply Hi.
  - done.
  - destruct (tn_validate r id); cbn; auto.
  - destruct (tn_validate r id); cbn; auto.
  - cbn. auto.
  - cbn. auto.
  - cbn. split; [done|]. intros _. split; [done|]. intros x. destruct (as_ids x) as [ks|e|]; [|done..]. generalize ([] : list (tentry L)) as es.
    induction ks as [|k ks IH]; intros es; [done|]. cbn. intros d. destruct (t_map d !! k) as [e|]; [|done]. apply IH.
Qed.
End tn_safe.

Section ip_safe.
Context {S D : Type} (parse : S -> option addr) (X : N -> Prop) (rel : bool) (r : iptable D).
Hypothesis HB : few X.
Local Notation safe := (safe method (calm (T := D) X rel) (fun x : iout D => i_panicked x = false)).
Local Notation small := (small (T := D) X).
Local Ltac call d' Hd Hs := intros d' Hd; assert (small d') as Hs by (by eapply calm_small); rewrite alone_method; cbn [step fst snd].

Lemma ci_by_label_safe sel keys es d : rel = false -> (forall k, k ∈ keys -> is_Some (t_map d !! k)) -> safe (ci_by_label sel keys es) d.
Proof.
  intros Hrel. revert es d. induction keys as [|k keys IH]; intros es d Hk; [done|]. cbn [ci_by_label ConcProofs.safe].
  intros d' (_ & Hd & _). specialize (Hd Hrel). destruct (Hd k) as [e He]; [apply Hk; left|]. rewrite He.
  destruct (sel (e_data e)).
  - cbn [ConcProofs.safe]. intros d'' (_ & Hd' & _). specialize (Hd' Hrel). destruct (Hd' k) as [e' He']; [apply Hd, Hk; left|].
    rewrite He'. apply IH. intros k' Hk'. apply Hd', Hd, Hk. by right.
  - apply IH. intros k' Hk'. apply Hd, Hk. by right.
Qed.
Lemma ip_data_ok (es : list (option (entry D))) : Forall is_Some es -> exists xs, ip_data es = Ok xs.
Proof. induction 1 as [|e es [x ->] Hes [xs IH]]; [by exists []|]. cbn [ip_data]. rewrite IH. cbn. eauto. Qed.
Lemma ip_call_safe o d : small d -> (rel = true -> i_by_label o = false) ->
  (forall k, k < t_size d -> calculate_ip_from_index (ip_from r) k <> Panic) -> safe (ip_call parse r o) d.
Proof.
  intros Hs Hl Hip.
  assert (Hval : forall s, (exists a, ip_validate parse r s = Ok a) \/ exists e, ip_validate parse r s = Err e).
  { intros s. unfold ip_validate. destruct (parse s); [|eauto]. destruct (iprange_contains _ _ _); eauto. }
  destruct o as [s|s l|s|s l| |s|s| | |sel]; cbn [ip_call].
  - destruct (Hval s) as [[a ->]|[e ->]]; [|done]. cbn [ConcProofs.safe]. call d' Hd Hs'. cbn [as_entry].
    pose proof (get_no_panic d' (calculate_index a (ip_from r))). by destruct (get d' _).
  - destruct (Hval s) as [[a ->]|[e ->]]; [|done]. cbn [ConcProofs.safe]. call d' Hd Hs'. cbn [as_bool]. destruct (negb _); [done|].
    cbn [ConcProofs.safe]. call d'' Hd' Hs''. pose proof (claim_no_panic d'' (calculate_index a (ip_from r)) l).
    destruct (claim d'' _ _) as [d2 v]. cbn in *. by destruct v.
  - destruct (Hval s) as [[a ->]|[e ->]]; [|done]. cbn [ConcProofs.safe]. call d' Hd Hs'.
    pose proof (release_no_panic d' (calculate_index a (ip_from r))). destruct (release d' _) as [d2 v]. cbn in *. by destruct v.
  - destruct (Hval s) as [[a ->]|[e ->]]; [|done]. cbn [ConcProofs.safe]. call d' Hd Hs'. cbn [as_bool]. destruct (is_free_op _ _); [done|].
    cbn [ConcProofs.safe]. call d'' Hd' Hs''. pose proof (update_no_panic d'' (calculate_index a (ip_from r)) l).
    destruct (update_op d'' _ _) as [d2 v]. cbn in *. by destruct v.
  - cbn [ConcProofs.safe]. call d' Hd Hs'. done.
  - destruct (Hval s) as [[a ->]|[e ->]]; [|done]. cbn [ConcProofs.safe]. call d' Hd Hs'. done.
  - destruct (Hval s) as [[a ->]|[e ->]]; [|done]. cbn [ConcProofs.safe]. call d' Hd Hs'. done.
  - cbn [ConcProofs.safe]. call d' Hd Hs'. cbn [as_id].
    destruct (small_find_free X d' Hs') as [->|(k & -> & Hk)]; cbn [rbind]; [done|].
    assert (Hp : calculate_ip_from_index (ip_from r) k <> Panic) by (apply Hip; by destruct Hd as (<- & _)).
    cbn. by destruct (calculate_ip_from_index _ _).
  - cbn [ConcProofs.safe]. call d' Hd Hs'. cbn [as_values].
    destruct (small_get_all X HB d' Hs') as (es & -> & Hes). cbn [rbind]. by destruct (ip_data_ok es Hes) as [xs ->].
  - cbn [ConcProofs.safe]. call d' Hd Hs'. cbn [as_ids].
    destruct (small_iterate X HB d' Hs') as (ks & -> & Hks). apply ci_by_label_safe; [|done].
    destruct rel; [|done]. by specialize (Hl eq_refl).
Qed.

(** The methods the calls of an iptable use. *)
Definition ipop (upd : bool) (o : op D) : Prop :=
  match o with
  | OGet _ | OIsFree _ | OHas _ | OSize | OFindFree | OGetAll | OIterate => True
  | OClaim k _ => X k
  | OUpdate k _ => upd = true /\ X k
  | ORelease k => rel = true
  | _ => False
  end.
(** An id the call names. *)
Definition ip_names (o : iop S D) (k : N) : Prop :=
  match o with
  | IClaim s _ | IUpdate s _ => exists a, ip_validate parse r s = Ok a /\ calculate_index a (ip_from r) = k
  | _ => False
  end.
Lemma ip_call_only upd o : (i_releases o = true -> rel = true) -> (i_updates o = true -> upd = true) ->
  (forall k, ip_names o k -> X k) ->
  only (ipop upd) (ip_call parse r o).
Proof.
  intros H1 H2 Hi. destruct o as [s|s l|s|s l| |s|s| | |sel]; cbn [ip_call i_releases i_updates ip_names] in *;
    try (destruct (ip_validate parse r s) as [a|e|] eqn:Hv; [|done..]); cbn; eauto.
  - split; [done|]. intros x. destruct (negb _); [done|]. cbn. split; [|done]. apply Hi. by exists a.
  - split; [done|]. intros x. destruct (as_bool x); [done|]. cbn. split; [|done]. split; [by apply H2|]. apply Hi. by exists a.
  - split; [done|]. intros x. destruct (as_ids x) as [ks|e|]; [|done..]. generalize ([] : list D) as es.
    induction ks as [|k ks IH]; intros es; [done|]. cbn. intros d. destruct (t_map d !! k) as [e|]; [|done].
    destruct (sel (e_data e)); [|apply IH]. cbn. intros d'. destruct (t_map d' !! k); [apply IH|done].
Qed.
End ip_safe.
