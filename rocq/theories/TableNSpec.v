(** Vocabulary for the statements about table16, table32 and table64. *)
From Verif Require Export TableNModel IdxTableSpec.

(** The three packages, and the width of each. *)
Definition tn_packages : list tn_cfg := [cfg_table16; cfg_table32; cfg_table64].

Section spec.
Context {L : Type}.

(** The ids a table has handed out, as the outside world names them, with their
    labels.  The index k of the underlying table stands for the id start+k. *)
Definition tn_claimed (r : tableN L) : gmap N L :=
  kmap (N.add (tn_start r)) (te_labels <$> claimed (tn_table r)).

(** The ids in the calls are Go uint64 values. *)
Definition top_uint64 (o : top L) : bool :=
  match o with
  | TGet id | TClaim id _ | TRelease id | TUpdate id _ | THas id | TIsFree id => id <? 2 ^ 64
  | _ => true
  end.

(** A table that some history of calls on New(start,end) leads to. *)
Definition tn_reachable (c : tn_cfg) (start end_ : N) (r : tableN L) : Prop :=
  exists os, forallb top_uint64 os = true /\ fst (tn_run (tn_new c start end_) os) = r.

(** Calls on one id. *)
Definition tn_single (o : top L) : bool :=
  match o with
  | TClaim _ _ | TRelease _ | TUpdate _ _ | TSize | THas _ | TIsFree _ => true
  | _ => false
  end.

(** What a map over the ids of [a,b] does. *)
Definition tn_spec (a b : N) (m : gmap N L) (o : top L) : gmap N L * tout L :=
  let inside id := (a <=? id) && (id <=? b) in
  match o with
  | TClaim id l =>
      if inside id then
        match m !! id with
        | None => (<[id := l]> m, TRUnit (Ok tt))
        | Some _ => (m, TRUnit (Err EAlreadyClaimed))
        end
      else (m, TRUnit (Err EOutsideRange))
  | TRelease id =>
      if inside id then (delete id m, TRUnit (Ok tt))
      else (m, TRUnit (Err EOutsideRange))
  | TUpdate id l =>
      if inside id then
        match m !! id with
        | Some _ => (<[id := l]> m, TRUnit (Ok tt))
        | None => (m, TRUnit (Err ENotCreated))
        end
      else (m, TRUnit (Err EOutsideRange))
  | TSize => (m, TRInt (size m))
  | THas id => (m, TRBool (inside id && bool_decide (is_Some (m !! id))))
  | TIsFree id => (m, TRBool (inside id && bool_decide (m !! id = None)))
  | _ => (m, TRBool false)
  end.

Fixpoint tn_spec_run (a b : N) (m : gmap N L) (os : list (top L)) : gmap N L * list (tout L) :=
  match os with
  | [] => (m, [])
  | o :: os' =>
      let '(m1, x) := tn_spec a b m o in
      let '(m2, xs) := tn_spec_run a b m1 os' in (m2, x :: xs)
  end.

(** [id] is an unclaimed id of [a,b] / the smallest one. *)
Definition tn_unclaimed (a b : N) (m : gmap N L) (id : N) : Prop :=
  a <= id <= b /\ m !! id = None.
Definition tn_lowest (a b : N) (m : gmap N L) (id : N) : Prop :=
  tn_unclaimed a b m id /\ forall j, tn_unclaimed a b m j -> id <= j.

(** The call was refused or reports an empty table. *)
Definition refused (o : top L) (x : tout L) : Prop :=
  match o, x with
  | TGet _, TREntry (Err _) | TClaimFree _, TREntry (Err _)
  | TClaim _ _, TRUnit (Err _) | TRelease _, TRUnit (Err _) | TUpdate _ _, TRUnit (Err _)
  | THas _, TRBool false | TIsFree _, TRBool false
  | TSize, TRInt O | TGetAll, TREntries (Ok []) | TGetByLabel _, TREntries (Ok [])
  | TFindFree, _ => True
  | _, _ => False
  end.

End spec.
