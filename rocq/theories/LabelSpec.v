(** Vocabulary for the statements about label sets. *)
From stdpp Require Import strings gmap.
From Verif Require Export LabelModel IdModel.

(** The character [ch] is in the string. *)
Fixpoint occurs (ch : ascii) (s : string) : Prop :=
  match s with
  | String.EmptyString => False
  | String.String a s' => a = ch \/ occurs ch s'
  end.
(** Labels as Kubernetes allows them have neither commas nor equals signs. *)
Definition plain (m : labels) : Prop :=
  forall k v, m !! k = Some v -> ~ occurs "="%char k /\ ~ occurs ","%char k /\ ~ occurs ","%char v.
