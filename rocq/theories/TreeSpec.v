(** Vocabulary for the statements about the radix tree of pkg/tree. *)
From Verif Require Export IdSpec TreeModel.

(** The prefix of an id: its leading Length() bits, the leftmost first. *)
Definition bits (w v : N) (n : nat) : list bool :=
  (fun k => N.testbit v (w - 1 - N.of_nat k)) <$> seq 0 n.
Definition prefix (w : N) (x : id) : list bool := bits w (i_id x) (N.to_nat (i_len x)).

Section Spec.
Context {T : Type}.

(** A plain map from prefixes to the (non-empty) lists of their values. *)
Definition pmap : Type := gmap (list bool) (list T).
Definition held (m : pmap) (q : list bool) : list T := default [] (m !! q).
Definition put (m : pmap) (q : list bool) (l : list T) : pmap :=
  match l with [] => delete q m | _ => <[q := l]> m end.

(** Set: the first value is overwritten. *)
Definition set_list (v : T) (l : list T) : list T :=
  match l with [] => [v] | _ :: l' => v :: l' end.
(** Add: appended unless a value matches. *)
Definition add_list (mf : option (T -> T -> bool)) (v : T) (l : list T) : list T :=
  match mf with
  | Some m => if existsb (fun y => m y v) l then l else l ++ [v]
  | None => l ++ [v]
  end.
(** Delete: the matching values go; of the others, one that matches an earlier
    one goes too (see [drop_duplicates_id]). *)
Definition drop_duplicates (m : T -> T -> bool) (l : list T) : list T :=
  fold_left (fun acc y => add_list (Some m) y acc) l [].
Definition delete_list (m : T -> T -> bool) (v : T) (l : list T) : list T :=
  drop_duplicates m (List.filter (fun y => negb (m y v)) l).
Definition count_matching (m : T -> T -> bool) (v : T) (l : list T) : N :=
  N.of_nat (length (List.filter (fun y => m y v) l)).

(** The calls on the plain map, with their results. *)
Definition spec_step (w : N) (m : pmap) (o : top T) : pmap * tres :=
  match o with
  | TSet x v =>
      let q := prefix w x in
      let l := set_list v (held m q) in
      (put m q l, RAdded (length (held m q) <? length l)%nat (N.of_nat (length l)))
  | TAdd x v mf =>
      let q := prefix w x in
      let l := add_list mf v (held m q) in
      (put m q l, RAdded (length (held m q) <? length l)%nat (N.of_nat (length l)))
  | TDelete x mf v =>
      let q := prefix w x in
      (put m q (delete_list mf v (held m q)), RDeleted (count_matching mf v (held m q)))
  end.
Fixpoint spec_run (w : N) (m : pmap) (os : list (top T)) : pmap * list tres :=
  match os with
  | [] => (m, [])
  | o :: os' =>
      let a := spec_step w m o in
      let b := spec_run w (fst a) os' in
      (fst b, snd a :: snd b)
  end.

(** The ids a caller passes: of the width, no longer than it. *)
Definition top_id (o : top T) : id :=
  match o with TSet x _ | TAdd x _ _ | TDelete x _ _ => x end.
Definition top_ok (c : idcfg) (o : top T) : Prop :=
  i_id (top_id o) < 2 ^ id_w c /\ i_len (top_id o) <= id_w c.

(** What fits the 64-bit keys: fewer than 2^(63-w) - 1 prefixes at a time, at
    most 2^w values each.  With the width 64 the keys do not depend on the node;
    the bound is then that of the indexes, 2^63 - 1. *)
Definition kbits (w : N) : N := if w =? 64 then 64 else 64 - w.
Definition room (w : N) (m : pmap) : Prop :=
  N.of_nat (size m) + 2 <= 2 ^ (kbits w - 1) /\
  forall q l, m !! q = Some l -> N.of_nat (length l) <= 2 ^ w.
Fixpoint roomy (w : N) (m : pmap) (os : list (top T)) : Prop :=
  room w m /\ match os with [] => True | o :: os' => roomy w (fst (spec_step w m o)) os' end.

(** The largest number of prefixes with values at any time during the calls. *)
Fixpoint peak (w : N) (m : pmap) (os : list (top T)) : nat :=
  Nat.max (size m) match os with [] => O | o :: os' => peak w (fst (spec_step w m o)) os' end.
(** Calls that never put a second value at a prefix. *)
Definition set_or_delete (o : top T) : Prop :=
  match o with TAdd _ _ _ => False | _ => True end.
End Spec.
Arguments pmap : clear implicits.

(** The order of the iterator: a prefix before its extensions, bit 0 before bit 1. *)
Fixpoint pbefore (p q : list bool) : Prop :=
  match p, q with
  | _, [] => False
  | [], _ :: _ => True
  | a :: p', b :: q' => (a = false /\ b = true) \/ (a = b /\ pbefore p' q')
  end.

(** [pv] lists the contents of the map in that order. *)
Definition listing {T} (m : pmap T) (pv : list (list bool * list T)) : Prop :=
  StronglySorted pbefore pv.*1 /\ forall q l, (q, l) ∈ pv <-> m !! q = Some l.
