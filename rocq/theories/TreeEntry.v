(** Model of pkg/tree/entry.go. *)
From Verif Require Export GoBase.

(** pkg/tree/entry.go:16-19 [entry], 22-23 (ID, Labels), 34-39 [NewEntry].
    The id is kept as its value and length (tree.ID of the packages id16, id32,
    id64 are value structs with these two fields).  Labels are values of an
    arbitrary type [L]: a Go labels.Set is a map the caller could still mutate
    after the call; such aliasing is not modelled. *)
Record tentry (L : Type) : Type := TEntry { te_id : N; te_len : N; te_labels : L }.
Arguments TEntry {L} _ _ _.
Arguments te_id {L} _.
Arguments te_len {L} _.
Arguments te_labels {L} _.

(** pkg/tree/entry.go:25-32 [Equal]; [lstr] is labels.Set.String(), of which
    only the results' equality matters. *)
Definition entry_equal {L S : Type} (lstr : L -> S) (seqb : S -> S -> bool)
    (r e2 : tentry L) : bool :=
  (te_id r =? te_id e2) && (te_len r =? te_len e2) &&
  seqb (lstr (te_labels r)) (lstr (te_labels e2)).
