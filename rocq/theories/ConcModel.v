(** Model of concurrent execution: goroutines that share data guarded by a
    sync.RWMutex (pkg/idxtable/table.go:43, tree16.go:28, tree32.go:26,
    tree64.go:26).  A machine step is one step of one goroutine; a schedule is any
    list of goroutine numbers.  The machine stands for Go's runtime; the code of the
    repository is in IdxConcModel.v, TableConcModel.v and GTreeConcModel.v. *)
From Verif Require Export GoBase.

(** sync.RWMutex.  [rw_readers]: the read locks held; [rw_writer]: no writer, one
    that has called Lock and waits for the readers to leave, or one that holds
    the lock.  A waiting writer keeps new readers and other writers out
    (documentation of RWMutex.Lock).  Simplification: the order in which blocked
    goroutines are woken is left open. *)
Inductive wstate : Set := WNone | WWait | WHeld.
Record rwmutex : Set := RW { rw_readers : nat; rw_writer : wstate }.

Section Machine.
(** [D]: the shared data; [R]: what a method returns. *)
Context {D R : Type}.

(** The code of a method, seen from the shared data: every read and write of it
    and every lock operation is one step; local computation takes no time.
    [Wait] is a Lock call that has been announced. *)
Inductive prog : Type :=
| Ret (r : R)
| Read (k : D -> prog)
| Write (f : D -> D) (p : prog)
| RLock (p : prog)
| RUnlock (p : prog)
| Lock (p : prog)
| Wait (p : prog)
| Unlock (p : prog).

(** The method run with no other goroutine around. *)
Fixpoint alone (p : prog) (d : D) : D * R :=
  match p with
  | Ret r => (d, r)
  | Read k => alone (k d) d
  | Write f p => alone p (f d)
  | RLock p | RUnlock p | Lock p | Wait p | Unlock p => alone p d
  end.

(** One step of the method; None: blocked (or, for Ret, nothing left to do).
    Unlocking a mutex that is not locked is a fatal error in Go; here it blocks,
    and no method does it. *)
Definition prog_step (d : D) (m : rwmutex) (p : prog) : option (D * rwmutex * prog) :=
  match p with
  | Ret _ => None
  | Read k => Some (d, m, k d)
  | Write f p => Some (f d, m, p)
  | RLock p => match rw_writer m with
               | WNone => Some (d, RW (S (rw_readers m)) WNone, p)
               | _ => None
               end
  | RUnlock p => match rw_readers m with
                 | O => None
                 | S n => Some (d, RW n (rw_writer m), p)
                 end
  | Lock p => match rw_writer m with
              | WNone => Some (d, RW (rw_readers m) WWait, Wait p)
              | _ => None
              end
  | Wait p => match rw_readers m, rw_writer m with
              | O, WWait => Some (d, RW 0 WHeld, p)
              | _, _ => None
              end
  | Unlock p => match rw_writer m with
                | WHeld => Some (d, RW (rw_readers m) WNone, p)
                | _ => None
                end
  end.

(** [Op]: the methods; [A]: what a call of a client returns. *)
Context {Op A : Type} (method : Op -> prog).

(** A call as a client makes it: a sequence of method calls that may depend on
    the results so far ([CCall]), and reads of the shared data without a lock
    ([CPeek]). *)
Inductive client : Type :=
| CRet (a : A)
| CCall (o : Op) (k : R -> client)
| CPeek (k : D -> client).

(** A goroutine: the calls still to make, the number of calls made, and what it
    is doing. *)
Inductive activity : Type :=
| Idle
| Between (p : client)
| Inside (o : Op) (p : prog) (k : R -> client).
Record thread : Type := Thread { th_todo : list client; th_done : nat; th_now : activity }.

(** The number of a call: the goroutine and how many calls it made before. *)
Definition cid : Set := (nat * nat)%type.
Inductive event : Type := EStart (c : cid) | EEnd (c : cid) (a : A).

Record sys : Type := Sys {
  sy_data : D; sy_mutex : rwmutex; sy_threads : list thread; sy_hist : list event }.

(** One step of goroutine number [i], None when it cannot go on. *)
Definition thread_step (i : nat) (d : D) (m : rwmutex) (th : thread)
    : option (D * rwmutex * thread * list event) :=
  let n := th_done th in
  match th_now th with
  | Idle =>
      match th_todo th with
      | [] => None
      | p :: ps => Some (d, m, Thread ps n (Between p), [EStart (i, n)])
      end
  | Between (CRet a) => Some (d, m, Thread (th_todo th) (S n) Idle, [EEnd (i, n) a])
  | Between (CCall o k) => Some (d, m, Thread (th_todo th) n (Inside o (method o) k), [])
  | Between (CPeek k) => Some (d, m, Thread (th_todo th) n (Between (k d)), [])
  | Inside o (Ret r) k => Some (d, m, Thread (th_todo th) n (Between (k r)), [])
  | Inside o p k =>
      match prog_step d m p with
      | Some (d', m', p') => Some (d', m', Thread (th_todo th) n (Inside o p' k), [])
      | None => None
      end
  end.

Definition sys_step (s : sys) (i : nat) : option sys :=
  match sy_threads s !! i with
  | None => None
  | Some th =>
      match thread_step i (sy_data s) (sy_mutex s) th with
      | Some (d, m, th', es) => Some (Sys d m (<[i := th']> (sy_threads s)) (sy_hist s ++ es))
      | None => None
      end
  end.

Fixpoint sys_run (s : sys) (sched : list nat) : option sys :=
  match sched with
  | [] => Some s
  | i :: sched' => match sys_step s i with Some s' => sys_run s' sched' | None => None end
  end.

(** Goroutine number i makes the calls [todo !! i], one after another. *)
Definition start (d : D) (todo : list (list client)) : sys :=
  Sys d (RW 0 WNone) ((fun ps => Thread ps 0 Idle) <$> todo) [].

(** A call run with no other goroutine around. *)
Fixpoint client_alone (p : client) (d : D) : D * A :=
  match p with
  | CRet a => (d, a)
  | CCall o k => let '(d', r) := alone (method o) d in client_alone (k r) d'
  | CPeek k => client_alone (k d) d
  end.
End Machine.
Arguments prog : clear implicits.
Arguments client : clear implicits.
Arguments thread : clear implicits.
Arguments activity : clear implicits.
Arguments event : clear implicits.
Arguments sys : clear implicits.
