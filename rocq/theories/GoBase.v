(** Shared vocabulary of the models: results of Go functions and fixed-width
    unsigned arithmetic.  No proofs here. *)
From stdpp Require Export base gmap list numbers sorting.
Global Open Scope N_scope.

(** Error values.  Go errors are formatted strings; the model keeps one
    constructor per error-producing statement (the text is not modelled). *)
Inductive err : Set :=
| EIdTooBig          (* pkg/idxtable/table.go:50 *)
| ENoEntry           (* table.go:65 *)
| ENoFree            (* table.go:89, 222 *)
| EStartTooBig       (* table.go:235 *)
| EEndTooBig         (* table.go:238 *)
| EInUse             (* table.go:252 *)
| ENoRange           (* table.go:260 *)
| ESizeTooBig        (* table.go:271 *)
| ENoSize            (* table.go:283 *)
| EExists            (* table.go:291 *)
| ENotCreated        (* table.go:302 *)
| EOutsideRange      (* tableN validateID, iptable validateIP *)
| EAlreadyClaimed    (* tableN Claim, iptable Claim *)
| ENotClaimed        (* iptable Update *)
| EBadAddr           (* iptable validateIP: unparsable *)
| EMaskTooLong       (* idN Mask *)
| ENoHyphen | EBadFrom | EBadTo     (* idN ParseRange *)
| EAddRange | ERemoveRange | EAddId | ERemoveId  (* idset.go errors.Join *)
| ELengthTooBig      (* treeN New *)
| ENotFound          (* treeN Get *)
| EMaxId             (* treeN validate *)
| ENoFreeId.         (* treeN findFree / ClaimFree *)

(** The outcome of a Go call: a value, an error, or a run-time panic. *)
Inductive res (A : Type) : Type :=
| Ok (a : A)
| Err (e : err)
| Panic.
Arguments Ok {A} a.
Arguments Err {A} e.
Arguments Panic {A}.

Definition is_ok {A} (r : res A) : bool :=
  match r with Ok _ => true | _ => false end.
Definition is_err {A} (r : res A) : bool :=
  match r with Err _ => true | _ => false end.

Definition rbind {A B} (r : res A) (k : A -> res B) : res B :=
  match r with Ok a => k a | Err e => Err e | Panic => Panic end.
Notation "'do' x <- e ; k" := (rbind e (fun x => k))
  (at level 200, x name, e at level 100, k at level 200).

(** Unsigned arithmetic of width [w] (Go's uint8/16/32/64 wrap around). *)
Definition uwrap (w x : N) : N := x mod 2 ^ w.
Definition uadd (w x y : N) : N := (x + y) mod 2 ^ w.
Definition usub (w x y : N) : N := (x + 2 ^ w - y mod 2 ^ w) mod 2 ^ w.
(** Go's [x << s]: bits shifted out are dropped, also for s >= w. *)
Definition ushl (w x s : N) : N := (N.shiftl x s) mod 2 ^ w.
(** Go's [^x]. *)
Definition unot (w x : N) : N := N.lxor x (N.ones w).
(** math/bits.LeadingZeros<w>. *)
Definition lz (w x : N) : N := w - N.size x.
