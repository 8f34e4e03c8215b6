(** Vocabulary for the statements about concurrent executions of an idxtable. *)
From Verif Require Export ConcSpec IdxConcModel.

Section idxtable.
Context {T : Type}.
(** The calls that change the table, and GetAll. *)
Definition writes_table (o : op T) : bool :=
  match o with
  | OClaim _ _ | OClaimDynamic _ | OClaimRange _ _ _ | OClaimSize _ _ | ORelease _ | OUpdate _ _ => true
  | _ => false
  end.
Definition nests (o : op T) : bool := match o with OGetAll => true | _ => false end.
End idxtable.
