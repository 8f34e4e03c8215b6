(** Vocabulary for the statements about pkg/idxtable.  Everything here is
    plain mathematics about finite maps; it does not use the helper functions of
    the model. *)
From Verif Require Export IdxTableModel.

Section spec.
Context {T : Type}.

(** The claimed ids of a table with their data. *)
Definition claimed (r : table T) : gmap N T := e_data <$> t_map r.

(** The ids a table created with [NewTable(sz)] accepts: those below [sz], except
    that [NewTable(0)] accepts every uint64 (the check is [id > size-1], and
    [size-1] wraps). *)
Definition capacity (sz : N) : N := if sz =? 0 then 2 ^ 64 else sz.

(** A table that some history of calls on a fresh table of that size leads to. *)
Definition reachable (sz : N) (r : table T) : Prop :=
  exists os, fst (run (new_table sz) os) = r.

(** [id] is an unclaimed id of the table. *)
Definition unclaimed (sz : N) (m : gmap N T) (id : N) : Prop :=
  id < sz /\ m !! id = None.

(** [id] is the smallest unclaimed id. *)
Definition lowest_unclaimed (sz : N) (m : gmap N T) (id : N) : Prop :=
  unclaimed sz m id /\ forall j, unclaimed sz m j -> id <= j.

(** Calls that concern one id at a time. *)
Definition single_op (o : op T) : bool :=
  match o with
  | OGet _ | OClaim _ _ | ORelease _ | OUpdate _ _
  | OSize | OHas _ | OIsFree _ => true
  | _ => false
  end.

(** The bounded map a user has in mind: what each single-id call returns and
    does, for a map [m] over the ids below [sz]. *)
Definition spec_single (sz : N) (m : gmap N T) (o : op T) : gmap N T * out T :=
  match o with
  | OGet id =>
      (m, REntry (if id <? sz then
                    match m !! id with
                    | Some d => Ok (NewEntry id d)
                    | None => Err ENoEntry
                    end
                  else Err EIdTooBig))
  | OClaim id d =>
      if id <? sz then
        match m !! id with
        | None => (<[id := d]> m, RUnit (Ok tt))
        | Some _ => (m, RUnit (Err EExists))
        end
      else (m, RUnit (Err EIdTooBig))
  | OUpdate id d =>
      if id <? sz then
        match m !! id with
        | Some _ => (<[id := d]> m, RUnit (Ok tt))
        | None => (m, RUnit (Err ENotCreated))
        end
      else (m, RUnit (Err EIdTooBig))
  | ORelease id =>
      if id <? sz then (delete id m, RUnit (Ok tt))
      else (m, RUnit (Err EIdTooBig))
  | OSize => (m, RInt (size m))
  | OHas id => (m, RBool (bool_decide (is_Some (m !! id))))
  | OIsFree id => (m, RBool (bool_decide (m !! id = None)))
  | _ => (m, RBool false)
  end.

Fixpoint spec_run (sz : N) (m : gmap N T) (os : list (op T)) : gmap N T * list (out T) :=
  match os with
  | [] => (m, [])
  | o :: os' =>
      let '(m1, x) := spec_single sz m o in
      let '(m2, xs) := spec_run sz m1 os' in (m2, x :: xs)
  end.

(** Ids [a, a+1, ..., a+n-1]. *)
Fixpoint ids_from (a : N) (n : nat) : list N :=
  match n with O => [] | S n' => a :: ids_from (a + 1) n' end.

(** The ids newly claimed by a call that takes the table from [r] to [r']. *)
Definition newly_claimed (r r' : table T) (id : N) : Prop :=
  claimed r !! id = None /\ is_Some (claimed r' !! id).

(** The call [o], made on table [r], succeeds and hands out [id].  For Claim the
    id is the argument, for ClaimDynamic and ClaimSize it is in the returned
    entries; ClaimRange returns no entries, its ids are those that turn from
    unclaimed to claimed. *)
Definition hands_out (r : table T) (o : op T) (id : N) : Prop :=
  match o, snd (step r o) with
  | OClaim i _, RUnit (Ok _) => id = i
  | OClaimDynamic _, REntry (Ok e) => id = e_id e
  | OClaimSize _ _, REntries (Ok es) => id ∈ map e_id es
  | OClaimRange _ _ _, RUnit (Ok _) => newly_claimed r (fst (step r o)) id
  | _, _ => False
  end.

Definition is_claim (o : op T) : bool :=
  match o with
  | OClaim _ _ | OClaimDynamic _ | OClaimSize _ _ | OClaimRange _ _ _ => true
  | _ => false
  end.

(** The data argument of a claim call. *)
Definition claim_data (o : op T) : option T :=
  match o with
  | OClaim _ d | OClaimDynamic d | OClaimSize _ d | OClaimRange _ _ d => Some d
  | _ => None
  end.

(** Strictly ascending lists. *)
Definition ascending (l : list N) : Prop := StronglySorted N.lt l.

(** At least [n] ids are unclaimed. *)
Definition at_least_free (sz : N) (m : gmap N T) (n : N) : Prop :=
  exists l, NoDup l /\ N.of_nat (length l) = n /\ forall x, x ∈ l -> unclaimed sz m x.

(** [l] is the list of the [n] smallest unclaimed ids, in ascending order. *)
Definition lowest_n (sz : N) (m : gmap N T) (n : N) (l : list N) : Prop :=
  ascending l /\ N.of_nat (length l) = n /\
  (forall x, x ∈ l -> unclaimed sz m x) /\
  (forall x j, x ∈ l -> unclaimed sz m j -> j ∉ l -> x < j).

(** The map [m] with every id of [l] bound to [d]. *)
Definition claim_all (m : gmap N T) (l : list N) (d : T) : gmap N T :=
  foldr (fun id m' => <[id := d]> m') m l.

(** Did the call report an error or crash? *)
Definition failed (x : out T) : bool :=
  match x with
  | RUnit (Ok _) | REntry (Ok _) | REntries (Ok _) | RIds (Ok _) | RId (Ok _)
  | RValues (Ok _) | RBool _ | RInt _ => false
  | _ => true
  end.
Definition crashed (x : out T) : bool :=
  match x with
  | RUnit Panic | REntry Panic | REntries Panic | RIds Panic | RId Panic
  | RValues Panic => true
  | _ => false
  end.

(** A user loop [for it.Next() { it.ID(); it.Value() }] during which other calls
    on the table happen: the i-th list of calls runs before the i-th Next. *)
Fixpoint walk (r : table T) (it : iterator) (oss : list (list (op T)))
    : res (list (N * option (entry T))) :=
  match oss with
  | [] => Ok []
  | os :: oss' =>
      let r1 := fst (run r os) in
      let '(it', more) := iter_next it in
      if more then
        do k <- iter_id it';
        do v <- iter_value (t_map r1) it';
        do rest <- walk r1 it' oss';
        Ok ((k, v) :: rest)
      else Ok []
  end.

End spec.

(** An iterator after [k] calls of Next. *)
Definition nexts (k : nat) (it : iterator) : iterator := Nat.iter k (fun it => fst (iter_next it)) it.
