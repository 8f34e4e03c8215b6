(** Vocabulary for the statements about every sequence of calls on the radix tree,
    whatever values are stored: only the prefixes that hold values are followed. *)
From Verif Require Export TreeSpec.

Notation pset := (gset (list bool)).

Section Shape.
Context {T : Type}.

(** One call, its result, and the prefixes that hold values before and after it.
    What a Delete leaves depends on the values; it never touches another prefix,
    it empties a prefix only if it reports deleted values, and it does empty it
    when everything matches. *)
Definition prefixes_step (w : N) (P : pset) (o : top T) (r : tres) (P' : pset) : Prop :=
  let q := prefix w (top_id o) in
  match o, r with
  | TDelete _ mf _, RDeleted n =>
      (P' = P \/ (P' = P ∖ {[ q ]} /\ q ∈ P /\ n <> 0)) /\
      (q ∉ P -> n = 0) /\
      ((forall a b, mf a b = true) -> P' = P ∖ {[ q ]} /\ (q ∈ P -> n <> 0))
  | TDelete _ _ _, _ => False
  | _, RAdded inc n => P' = {[ q ]} ∪ P /\ n <> 0 /\ (q ∉ P -> inc = true)
  | _, _ => False
  end.
Inductive prefixes_run (w : N) : pset -> list (top T) -> list tres -> pset -> Prop :=
| PR_nil P : prefixes_run w P [] [] P
| PR_cons P o r P1 os rs P2 :
    prefixes_step w P o r P1 -> prefixes_run w P1 os rs P2 -> prefixes_run w P (o :: os) (r :: rs) P2.

(** At no time during the calls does an iteration stop more than [B] times. *)
Definition at_most_stops (zero : T) (c : idcfg) (os : list (top T)) (B : N) : Prop :=
  forall os1 os2 s rs vss, os = os1 ++ os2 ->
    t_run zero c (tree_zero c) os1 = Ok (s, rs) -> iter_all zero s = Ok vss -> N.of_nat (length vss) <= B.
End Shape.
