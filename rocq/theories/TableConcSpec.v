(** Vocabulary for the statements about concurrent executions of table16/32/64
    and iptable. *)
From Verif Require Export IdxConcSpec TableNSpec IPTableSpec TableConcModel.
From Verif Require Import TableNModel.

(** The claimed ids of a table at the moments of a call: [M n m] says that after n
    steps the call is running and m is claimed. *)
Section moments.
Context {X : Type} (M : nat -> gmap N X -> Prop).
(** The ids of [m], ascending. *)
Definition listing (m : gmap N X) (ids : list N) : Prop :=
  ascending ids /\ forall id, id ∈ ids <-> is_Some (m !! id).
(** From moment n on the ids are looked up one after another, each at a moment of
    its own, with these results. *)
Inductive looked : nat -> list N -> list (option X) -> Prop :=
| looked_end n : looked n [] []
| looked_next n n' m id ids vs : (n <= n')%nat -> M n' m -> looked n' ids vs ->
    looked n (id :: ids) (m !! id :: vs).
(** From moment n on each id is looked up and, if the value is selected, looked up
    again; what was found then is kept. *)
Inductive looked_twice (sel : X -> bool) : nat -> list N -> list X -> Prop :=
| twice_end n : looked_twice sel n [] []
| twice_skip n n' m id x ids vs : (n <= n')%nat -> M n' m -> m !! id = Some x -> sel x = false ->
    looked_twice sel n' ids vs -> looked_twice sel n (id :: ids) vs
| twice_keep n n' n'' m m' id x y ids vs : (n <= n' <= n'')%nat -> M n' m -> m !! id = Some x -> sel x = true ->
    M n'' m' -> m' !! id = Some y -> looked_twice sel n'' ids vs -> looked_twice sel n (id :: ids) (y :: vs).
End moments.

(** Goroutines that call an idxtable, or go through its values with an iterator
    ([None]). *)
Section idxtable.
Context {T : Type}.
Definition idx_client (o : option (op T)) : client (table T) (out T) (op T) (out T) :=
  match o with Some o => direct o | None => iterate_values end.
Definition idx_system (d0 : table T) (todo : list (list (option (op T)))) : sys (table T) (out T) (op T) (out T) :=
  start d0 (map (map idx_client) todo).
Definition idx_moment (d0 : table T) (todo : list (list (option (op T)))) (sched : list nat) (k : cid) (n : nat) (m : gmap N T) : Prop :=
  exists s', sys_run method (idx_system d0 todo) (take n sched) = Some s' /\ during (sy_hist s') k /\ claimed (sy_data s') = m.
End idxtable.

Section tableN.
Context {L : Type}.

(** The id and the labels a call has claimed, if it has succeeded in claiming. *)
Definition claims (o : top L) (x : tout L) : option (N * L) :=
  match o, x with
  | TClaim id l, TRUnit (Ok _) => Some (id, l)
  | TClaimFree l, TREntry (Ok e) => Some (te_id e, l)
  | _, _ => None
  end.

Definition t_releases (o : top L) : bool := match o with TRelease _ => true | _ => false end.
Definition t_updates (o : top L) : bool := match o with TUpdate _ _ => true | _ => false end.
Definition t_by_label (o : top L) : bool := match o with TGetByLabel _ => true | _ => false end.
Definition t_gets_all (o : top L) : bool := match o with TGetAll => true | _ => false end.
Definition t_writes (o : top L) : bool :=
  match o with TClaim _ _ | TClaimFree _ | TRelease _ | TUpdate _ _ => true | _ => false end.

(** ClaimFree and GetByLabel, which depend on more than one state of the table. *)
Definition t_composite (o : top L) : bool := match o with TClaimFree _ | TGetByLabel _ => true | _ => false end.
(** The same result, up to which error it is. *)
Definition t_same (x y : tout L) : Prop := x = y \/ exists e e', x = TRUnit (Err e) /\ y = TRUnit (Err e').

(** What a call counts as, next to others, given its result: a ClaimFree that
    returned an entry as a Claim of the id of it; one that failed, unless for want
    of free ids, as nothing; every other call as itself. *)
Definition t_counts (ox : top L * tout L) : option (top L * tout L) :=
  match ox with
  | (TClaimFree l, TREntry (Ok e)) => Some (TClaim (te_id e) l, TRUnit (Ok tt))
  | (TClaimFree _, TREntry (Err ENoFree)) => Some ox
  | (TClaimFree _, TREntry (Err _)) => None
  | _ => Some ox
  end.

(** After n steps call k is running and the ids of m are claimed. *)
Definition tn_moment (r : tableN L) (todo : list (list (top L))) (sched : list nat) (k : cid) (n : nat) (m : gmap N L) : Prop :=
  exists s', sys_run method (tn_system r todo) (take n sched) = Some s' /\ during (sy_hist s') k /\
    tn_claimed (tn_with r (sy_data s')) = m.

(** The call ended in a panic. *)
Definition t_panicked (x : tout L) : bool :=
  match x with
  | TRUnit Panic | TREntry Panic | TRId Panic | TREntries Panic => true
  | _ => false
  end.
End tableN.

Section iptable.
Context {S D : Type}.
Definition i_releases (o : iop S D) : bool := match o with IRelease _ => true | _ => false end.
Definition i_updates (o : iop S D) : bool := match o with IUpdate _ _ => true | _ => false end.
Definition i_by_label (o : iop S D) : bool := match o with IGetByLabel _ => true | _ => false end.
Definition i_gets_all (o : iop S D) : bool := match o with IGetAll => true | _ => false end.
Definition i_writes (o : iop S D) : bool :=
  match o with IClaim _ _ | IRelease _ | IUpdate _ _ => true | _ => false end.
(** GetByLabel, which depends on more than one state of the table. *)
Definition i_composite (o : iop S D) : bool := match o with IGetByLabel _ => true | _ => false end.
Definition i_same (x y : iout D) : Prop := x = y \/ exists e e', x = IRUnit (Err e) /\ y = IRUnit (Err e').
Definition ip_moment (parse : S -> option addr) (r : iptable D) (todo : list (list (iop S D))) (sched : list nat) (k : cid)
    (n : nat) (m : gmap N D) : Prop :=
  exists s', sys_run method (ip_system parse r todo) (take n sched) = Some s' /\ during (sy_hist s') k /\
    ip_claimed (ip_with r (sy_data s')) = m.
Definition i_panicked (x : iout D) : bool :=
  match x with
  | IRUnit Panic | IRData Panic | IRAddr Panic | IRDatas Panic => true
  | _ => false
  end.
End iptable.
