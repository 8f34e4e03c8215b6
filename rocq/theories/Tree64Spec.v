(** Vocabulary for the statements about the tree over 64-bit ids and the package
    tree64.  What they remember: a set of prefixes, and one value. *)
From Verif Require Export GTreeSpec.

Notation pset := (gset (list bool)).

Section Spec.
Context {T : Type} (zero : T).

(** The calls on the tree of pkg/tree.  Add is not one of them: no package over
    64-bit ids uses it. *)
Definition cell_step (st : pset * T) (o : top T) : (pset * T) * tres :=
  match o with
  | TSet x v =>
      let q := prefix 64 x in
      (({[ q ]} ∪ fst st, v), RAdded (bool_decide (q ∉ fst st)) 1)
  | TDelete x mf v =>
      let q := prefix 64 x in
      if bool_decide (q ∈ fst st) && mf (snd st) v then ((fst st ∖ {[ q ]}, zero), RDeleted 1)
      else (st, RDeleted 0)
  | TAdd _ _ _ => (st, RDeleted 0)
  end.
Fixpoint cell_run (st : pset * T) (os : list (top T)) : (pset * T) * list tres :=
  match os with
  | [] => (st, [])
  | o :: os' =>
      let a := cell_step st o in
      let b := cell_run (fst a) os' in
      (fst b, snd a :: snd b)
  end.
(** The largest number of prefixes at a time. *)
Fixpoint cell_peak (st : pset * T) (os : list (top T)) : nat :=
  Nat.max (size (fst st)) match os with [] => O | o :: os' => cell_peak (fst (cell_step st o)) os' end.
End Spec.

Section GSpec.
Context {L : Type}.
Notation entry := (tentry L).

(** The calls on a tree64; None: the call panics. *)
Definition one : Type := pset * option entry.
Definition one_claim (st : one) (x : id) (l : L) : one :=
  ({[ prefix 64 x ]} ∪ fst st, Some (TEntry (i_id x) (i_len x) l)).
Definition one_step (n : N) (st : one) (o : gop L) : option (one * gres L) :=
  match o with
  | GClaimID x l | GUpdate x l =>
      Some (if 2 ^ n <=? i_id x then (st, GErr EMaxId) else (one_claim st x l, GDone))
  | GClaimFree _ => None
  | GClaimRange s l =>
      Some match parse_range cfg_id64 s with
           | Ok _ => (fold_left (fun st x => one_claim st x l) (range_prefixes cfg_tree64 s) st, GDone)
           | Err e => (st, GErr e)
           | Panic => (st, GDone)
           end
  | GReleaseID x =>
      if 2 ^ n <=? i_id x then Some (st, GErr EMaxId)
      else if bool_decide (fst st = ∅) then Some (st, GDone)
      else match snd st with
           | None => None
           | Some e => Some (if same_id e x then (fst st ∖ {[ prefix 64 x ]}, None) else st, GDone)
           end
  | GReleaseByLabel sel =>
      if bool_decide (fst st = ∅) then Some (st, GDone)
      else match snd st with
           | None => None
           | Some e => Some (if sel (te_labels e) then (fst st ∖ {[ prefix 64 (eid e) ]}, None) else st, GDone)
           end
  end.
Fixpoint one_run (n : N) (st : one) (os : list (gop L)) : option (one * list (gres L)) :=
  match os with
  | [] => Some (st, [])
  | o :: os' =>
      match one_step n st o with
      | None => None
      | Some a => match one_run n (fst a) os' with
                  | None => None
                  | Some b => Some (fst b, snd a :: snd b)
                  end
      end
  end.

(** What the reading calls return: the one entry, once for every prefix that
    passes; reading a nil entry panics. *)
Definition one_list (st : one) (keep : entry -> bool) : res (list (option entry)) :=
  if bool_decide (fst st = ∅) then Ok []
  else match snd st with
       | None => Panic
       | Some e => Ok (if keep e then replicate (size (fst st)) (Some e) else [])
       end.
Definition one_get (st : one) (x : id) : res entry :=
  if bool_decide (fst st = ∅) then Err ENotFound
  else match snd st with
       | None => Panic
       | Some e => if same_id e x then Ok e else Err ENotFound
       end.

(** What a caller sees of [g]. *)
Definition sees (g : gtree L) (st : one) : Prop :=
  g_Size g = Ok (N.of_nat (size (fst st))) /\
  g_get_all g = Ok (replicate (size (fst st)) (snd st)) /\
  (forall x, g_get g x = one_get st x) /\
  (forall sel, g_get_by_label g sel = one_list st (fun e => sel (te_labels e))) /\
  (forall x, gid_ok cfg_tree64 x ->
     g_children cfg_tree64 g x =
       one_list st (fun e => bool_decide (prefix 64 x `prefix_of` prefix 64 (eid e)) && (i_len x <? te_len e))) /\
  (forall x, gid_ok cfg_tree64 x ->
     g_parents cfg_tree64 g x =
       one_list st (fun e => bool_decide (prefix 64 x `prefix_of` prefix 64 (eid e) \/
                                          prefix 64 (eid e) `prefix_of` prefix 64 x) && (te_len e <? 64))).
End GSpec.
Arguments one : clear implicits.
