(** Vocabulary for the statements about IDSetBuilder and IDSet of pkg/tree/id16,
    id32, id64. *)
From Verif Require Export IdSpec IdSetModel.

(** A Range as RangeFrom, ParseRange and RangeOfID make it: bounds of full length
    that fit the width (not necessarily in order). *)
Definition range_ok (c : idcfg) (r : range) : Prop :=
  i_len (r_from r) = id_w c /\ i_len (r_to r) = id_w c /\
  i_id (r_from r) < 2 ^ id_w c /\ i_id (r_to r) < 2 ^ id_w c.

Definition in_range (r : range) (v : N) : Prop := i_id (r_from r) <= v <= i_id (r_to r).
Definition nonempty (r : range) : Prop := i_id (r_from r) <= i_id (r_to r).
(** The members of a set. *)
Definition members (s : idset) (v : N) : Prop := exists r, r ∈ s /\ in_range r v.

(** Arguments a caller can form. *)
Definition op_wf (c : idcfg) (o : bop) : Prop :=
  match o with
  | BAddId x | BRemoveId x => id_ok c x
  | BAddRange r | BRemoveRange r => range_ok c r
  | BAddSet s => Forall (range_ok c) s
  | BIPSet => True
  end.

(** The ids among them are no longer than the width. *)
Definition op_len (c : idcfg) (o : bop) : Prop :=
  match o with BAddId x | BRemoveId x => i_len x <= id_w c | _ => True end.

(** The ranges among them are not reversed. *)
Definition op_valid (o : bop) : Prop :=
  match o with
  | BAddRange r | BRemoveRange r => nonempty r
  | BAddSet s => Forall nonempty s
  | _ => True
  end.

(** The union or difference a call performs, on mathematical sets. *)
Definition op_apply (c : idcfg) (P : N -> Prop) (o : bop) : N -> Prop :=
  match o with
  | BAddId x => fun v => P v \/ covers (id_w c) x v
  | BRemoveId x => fun v => P v /\ ~ covers (id_w c) x v
  | BAddRange r => fun v => P v \/ in_range r v
  | BRemoveRange r => fun v => P v /\ ~ in_range r v
  | BAddSet s => fun v => P v \/ members s v
  | BIPSet => P
  end.
Definition history (c : idcfg) (os : list bop) : N -> Prop :=
  fold_left (op_apply c) os (fun _ => False).

(** The errors a call collects, and those pending after a sequence: IPSet()
    reports and resets them. *)
Definition reversed (r : range) : bool := i_id (r_to r) <? i_id (r_from r).
Definition op_errs (o : bop) : list err :=
  match o with
  | BAddRange r => if reversed r then [EAddRange] else []
  | BRemoveRange r => if reversed r then [ERemoveRange] else []
  | BAddSet s => map (fun _ => EAddRange) (List.filter reversed s)
  | _ => []
  end.
Definition errors (os : list bop) : list err :=
  fold_left (fun e o => match o with BIPSet => [] | _ => e ++ op_errs o end) os [].

(** The call adds or removes the interval [a,b] (among others). *)
Definition op_interval (c : idcfg) (o : bop) (a b : N) : Prop :=
  a <= b /\
  match o with
  | BAddId x | BRemoveId x => forall v, a <= v <= b <-> covers (id_w c) x v
  | BAddRange r | BRemoveRange r => a = i_id (r_from r) /\ b = i_id (r_to r)
  | BAddSet s => exists r, r ∈ s /\ a = i_id (r_from r) /\ b = i_id (r_to r)
  | BIPSet => False
  end.

(** The calls that remove ids. *)
Definition removes (o : bop) : Prop :=
  match o with BRemoveId _ | BRemoveRange _ => True | _ => False end.

(** Sorted, non-empty, disjoint and not adjacent. *)
Definition canonical_set (c : idcfg) (s : idset) : Prop :=
  Forall (fun r => range_ok c r /\ nonempty r) s /\
  StronglySorted (fun r o => i_id (r_to r) + 1 < i_id (r_from o)) s.

(** No interval added or removed starts at 1 or ends at 0; none contains the
    largest value. *)
Definition guard_low (c : idcfg) (os : list bop) : Prop :=
  forall (o : bop) (a b : N), o ∈ os -> op_interval c o a b -> a <> 1 /\ b <> 0.
Definition guard_high (c : idcfg) (os : list bop) : Prop :=
  forall (o : bop) (a b : N), o ∈ os -> op_interval c o a b -> b < 2 ^ id_w c - 1.

(** No prefix of values in [P] that contains the value of [x] is shorter than [x]. *)
Definition maximal_in (w : N) (P : N -> Prop) (x : id) : Prop :=
  forall y, i_len y <= w -> covers w y (i_id x) ->
    (forall v, covers w y v -> P v) -> i_len x <= i_len y.

(** What a list of ranges amounts to when it is merged: their union, unless one of
    them is [0,max] or [1,max] and another one starts at 1 and ends below max.
    Then of the ranges that start at 0 only 0 remains, and of [1,max] nothing. *)
Definition near_full (c : idcfg) (r : range) : Prop := i_id (r_from r) <= 1 /\ i_id (r_to r) = 2 ^ id_w c - 1.
Definition from_one (c : idcfg) (r : range) : Prop := i_id (r_from r) = 1 /\ i_id (r_to r) < 2 ^ id_w c - 1.
Definition lossy (c : idcfg) (l : list range) : Prop :=
  (exists r, r ∈ l /\ near_full c r) /\ (exists r, r ∈ l /\ from_one c r).
Definition amounts (c : idcfg) (l : list range) (v : N) : Prop :=
  exists r, r ∈ l /\ in_range r v /\ (lossy c l -> v = 0 \/ 1 < i_id (r_from r) \/ from_one c r).

(** A builder holds ranges to add and ranges to remove.  They are put together,
    into the ranges of the set they amount to, by IPSet and by the first addition
    after a removal. *)
Definition put_together (c : idcfg) (ins outs ins' : list range) : Prop :=
  canonical_set c ins' /\ forall v, members ins' v <-> amounts c ins v /\ ~ amounts c outs v.
(** Adding one range that is not reversed; reversed ones are left out. *)
Inductive holds_add (c : idcfg) : list range -> list range -> range -> list range -> list range -> Prop :=
| ha_reversed ins outs r : reversed r = true -> holds_add c ins outs r ins outs
| ha_add ins r : reversed r = false -> holds_add c ins [] r (ins ++ [r]) []
| ha_first ins outs ins' r : reversed r = false -> outs <> [] -> put_together c ins outs ins' ->
    holds_add c ins outs r (ins' ++ [r]) [].
Inductive holds_add_all (c : idcfg) : list range -> list range -> list range -> list range -> list range -> Prop :=
| haa_end ins outs : holds_add_all c ins outs [] ins outs
| haa_next ins outs r l ins1 outs1 ins2 outs2 : holds_add c ins outs r ins1 outs1 ->
    holds_add_all c ins1 outs1 l ins2 outs2 -> holds_add_all c ins outs (r :: l) ins2 outs2.
(** The range of an id. *)
Definition id_range (c : idcfg) (x : id) (r : range) : Prop :=
  range_ok c r /\ forall v, in_range r v <-> covers (id_w c) x v.
Inductive holds_step (c : idcfg) : list range -> list range -> bop -> list range -> list range -> Prop :=
| hs_add_id ins outs x r ins' outs' : id_range c x r -> holds_add c ins outs r ins' outs' ->
    holds_step c ins outs (BAddId x) ins' outs'
| hs_add_range ins outs r ins' outs' : holds_add c ins outs r ins' outs' ->
    holds_step c ins outs (BAddRange r) ins' outs'
| hs_add_set ins outs l ins' outs' : holds_add_all c ins outs l ins' outs' ->
    holds_step c ins outs (BAddSet l) ins' outs'
| hs_remove_id ins outs x r : id_range c x r -> holds_step c ins outs (BRemoveId x) ins (outs ++ [r])
| hs_remove_range ins outs r : reversed r = false -> holds_step c ins outs (BRemoveRange r) ins (outs ++ [r])
| hs_remove_reversed ins outs r : reversed r = true -> holds_step c ins outs (BRemoveRange r) ins outs
| hs_ip_set ins outs ins' : put_together c ins outs ins' -> holds_step c ins outs BIPSet ins' [].
Inductive holds (c : idcfg) : list range -> list range -> list bop -> list range -> list range -> Prop :=
| holds_end ins outs : holds c ins outs [] ins outs
| holds_next ins outs o os ins1 outs1 ins2 outs2 : holds_step c ins outs o ins1 outs1 ->
    holds c ins1 outs1 os ins2 outs2 -> holds c ins outs (o :: os) ins2 outs2.
