(** Vocabulary for the statements about test/main.go. *)
From Verif Require Export MainModel GTreeSpec.
From Coq Require Strings.String.
Import Coq.Strings.String.StringSyntax.
Local Open Scope string_scope.
Local Open Scope N_scope.

(** 0, 1, ..., k - 1. *)
Definition ids_below (k : nat) : list N := N.of_nat <$> seq 0 k.

(** The label sets {"id": v} with v in decimal, and {"range": "test"}. *)
Definition numbered (v : N) : labels := {[ "id" := dec v ]}.
Definition range_test : labels := {[ "range" := "test" ]}.
