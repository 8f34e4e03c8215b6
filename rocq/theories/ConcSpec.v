(** Vocabulary for the statements about concurrent executions. *)
From Verif Require Export ConcModel.

(** The call number c of a list of calls per goroutine. *)
Definition call_of {X : Type} (todo : list (list X)) (c : cid) : option X :=
  match todo !! c.1 with Some ps => ps !! c.2 | None => None end.

Section Spec.
Context {D R Op A : Type} (spec : D -> Op -> D * R).

(** The methods one after another: the final data and the results. *)
Fixpoint seq_run (d : D) (os : list Op) : D * list R :=
  match os with
  | [] => (d, [])
  | o :: os' =>
      let '(d1, r) := spec d o in
      let '(d2, rs) := seq_run d1 os' in (d2, r :: rs)
  end.

(** [follows p l q]: a client that has [p] to do makes the method calls [l], with
    these results, and then has [q] to do.  A read without the lock may see any
    data. *)
Inductive follows : client D R Op A -> list (Op * R) -> client D R Op A -> Prop :=
| follows_here p : follows p [] p
| follows_call o k r l q : follows (k r) l q -> follows (CCall o k) ((o, r) :: l) q
| follows_peek k d l q : follows (k d) l q -> follows (CPeek k) l q.

(** A log: method calls with their results and the client call they belong to. *)
Notation log := (list (cid * (Op * R))).
Definition log_ops (l : log) : list Op := (fun e => fst (snd e)) <$> l.
Definition log_results (l : log) : list R := (fun e => snd (snd e)) <$> l.
Definition calls_of (c : cid) (l : log) : list (Op * R) := snd <$> filter (fun e => e.1 = c) l.

(** Call c has returned before call c' started. *)
Definition precedes (h : list (event A)) (c c' : cid) : Prop :=
  exists i j a, (i < j)%nat /\ h !! i = Some (EEnd c a) /\ h !! j = Some (EStart c').

(** Call c has started and not yet returned. *)
Definition during (h : list (event A)) (c : cid) : Prop := EStart c ∈ h /\ forall a, EEnd c a ∉ h.

(** No goroutine is inside a method. *)
Definition quiet (s : sys D R Op A) : Prop :=
  forall i th, sy_threads s !! i = Some th ->
    match th_now th with Inside _ _ _ => False | _ => True end.
(** Every call has returned. *)
Definition finished (s : sys D R Op A) : Prop :=
  forall i th, sy_threads s !! i = Some th -> th_now th = Idle /\ th_todo th = [].

(** The next step of a goroutine if it is an access of the shared data: whether
    it is a write. *)
Definition next_access (th : thread D R Op A) : option bool :=
  match th_now th with
  | Inside _ (Read _) _ | Between (CPeek _) => Some false
  | Inside _ (Write _ _) _ => Some true
  | _ => None
  end.
(** A data race: one goroutine is about to write the shared data while another is
    about to read or write them. *)
Definition racing (s : sys D R Op A) : Prop :=
  exists i j th th' b, i <> j /\ sy_threads s !! i = Some th /\ sy_threads s !! j = Some th' /\
    next_access th = Some true /\ next_access th' = Some b.

(** The log [l] explains the state [s] reached from the data d0: executing its
    method calls one after another, from d0 on, gives its results and the data d;
    the part of the log that belongs to a client call is what the client did, up
    to its result if it has returned; the log respects the order of client calls
    that do not overlap in time; and d is the data once no method is running. *)
Record explains (d0 : D) (todo : list (list (client D R Op A))) (s : sys D R Op A) (l : log) (d : D) : Prop := {
  ex_seq : seq_run d0 (log_ops l) = (d, log_results l);
  ex_ended c a : EEnd c a ∈ sy_hist s ->
    exists p, call_of todo c = Some p /\ follows p (calls_of c l) (CRet a);
  ex_started c x : (c, x) ∈ l ->
    EStart c ∈ sy_hist s /\ exists p q, call_of todo c = Some p /\ follows p (calls_of c l) q;
  ex_order c c' i j x x' : precedes (sy_hist s) c c' ->
    l !! i = Some (c, x) -> l !! j = Some (c', x') -> (i < j)%nat;
  ex_final : quiet s -> sy_data s = d }.
End Spec.
