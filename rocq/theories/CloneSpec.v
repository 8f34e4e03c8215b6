(** Vocabulary for the statements about Clone in memory. *)
From Verif Require Export CloneModel.

Section Spec.
Context {T A O R : Type} (f : A * tree T -> O -> res (tree T * R)).

(** What can be read of the j-th tree: all its fields and contents. *)
Definition contents (w : world (T := T) (A := A)) (j : nat) : option (res (A * tree T)) :=
  match snd w !! j with
  | None => None
  | Some (a, o) => Some (do s <- load (fst w) o; Ok (a, s))
  end.

(** Not a call on the j-th tree; it may be a Clone of it. *)
Definition spares (j : nat) (k : mcmd (T := T) (O := O)) : Prop :=
  match k with MCall i _ _ => i <> j | MClone _ => True end.
End Spec.
