(** The methods of pkg/idxtable (table.go) step by step: lock operations, reads
    and writes of the table.  Reading the size of the table, which is never
    written, is part of the next access.  Simplification: going through all keys
    of the map (table.go:153-156) is one read; a method that panics releases its
    lock (defer) and returns [Panic]. *)
From Verif Require Export ConcModel IdxTableModel.

Section methods.
Context {T : Type}.
Notation prog := (prog (table T) (out T)).

(** table.go:211-214 [isFree] and 48-53 [validate], followed by [k]. *)
Definition p_validate (id : N) (k : res unit -> prog) : prog :=
  Read (fun d => k (validate d id)).
Definition p_is_free (id : N) (k : bool -> prog) : prog :=
  Read (fun d => k (is_free d id)).
(** The map assignment r.table[id] = e, table.go:293, 304. *)
Definition p_store (e : entry T) (p : prog) : prog :=
  Write (fun d => Table (t_size d) (<[e_id e := e]> (t_map d))) p.

(** table.go:286-295 [add]. *)
Definition p_add (e : entry T) (k : res unit -> prog) : prog :=
  p_validate (e_id e) (fun v =>
    match v with
    | Ok _ => p_is_free (e_id e) (fun free => if free then p_store e (k (Ok tt)) else k (Err EExists))
    | x => k x
    end).

(** table.go:297-306 [update]. *)
Definition p_update (e : entry T) (k : res unit -> prog) : prog :=
  p_validate (e_id e) (fun v =>
    match v with
    | Ok _ => p_is_free (e_id e) (fun free => if free then k (Err ENotCreated) else p_store e (k (Ok tt)))
    | x => k x
    end).

(** table.go:308-314 [delete]. *)
Definition p_delete (id : N) (k : res unit -> prog) : prog :=
  p_validate id (fun v =>
    match v with
    | Ok _ => Write (fun d => Table (t_size d) (delete id (t_map d))) (k (Ok tt))
    | x => k x
    end).

(** table.go:152-162 [iterate]. *)
Definition p_iterate (k : iterator -> prog) : prog := Read (fun d => k (iterate d)).

(** table.go:177-183, one read of the map per id. *)
Fixpoint p_free_loop (n : nat) (id : N) (keys : list N) (k : list N -> prog) : prog :=
  match n with
  | O => k keys
  | S n' =>
      p_is_free id (fun free =>
        p_free_loop n' (id + 1) (if free then keys ++ [id] else keys) k)
  end.

(** table.go:171-189 [iterateFree]. *)
Definition p_iterate_free (k : iterator -> prog) : prog :=
  Read (fun d => p_free_loop (N.to_nat (t_size d)) 0 [] (fun keys =>
    k (Iterator (2 ^ 64 - 1) (sort_keys keys)))).

(** table.go:231-261 [findFreeRange]. *)
Definition p_find_free_range (start size : N) (k : res (list N) -> prog) : prog :=
  let end_ := usub 64 (uadd 64 start size) 1 in
  Read (fun d =>
    if usub 64 (t_size d) 1 <? start then k (Err EStartTooBig)
    else if usub 64 (t_size d) 1 <? end_ then k (Err EEndTooBig)
    else p_iterate_free (fun free =>
      k (find_free_range_loop (S (length (it_keys free))) free start end_ []))).

(** table.go:269-284 [findFreeSize]. *)
Definition p_find_free_size (size : N) (k : res (list N) -> prog) : prog :=
  Read (fun d =>
    if t_size d <? size then k (Err ESizeTooBig)
    else p_iterate_free (fun free =>
      k (find_free_size_loop (S (length (it_keys free))) free 0 size []))).

(** table.go:100-106. *)
Fixpoint p_add_all (ids : list N) (d : T) (k : res unit -> prog) : prog :=
  match ids with
  | [] => k (Ok tt)
  | id :: ids' =>
      p_add (NewEntry id d) (fun v => match v with Ok _ => p_add_all ids' d k | x => k x end)
  end.

(** table.go:118-127. *)
Fixpoint p_add_all_entries (ids : list N) (d : T) (acc : list (entry T)) (k : res (list (entry T)) -> prog) : prog :=
  match ids with
  | [] => k (Ok acc)
  | id :: ids' =>
      let e := NewEntry id d in
      p_add e (fun v =>
        match v with
        | Ok _ => p_add_all_entries ids' d (acc ++ [e]) k
        | Err x => k (Err x)
        | Panic => k Panic
        end)
  end.

(** table.go:323-325, one read of the map per key. *)
Fixpoint p_values (fuel : nat) (it : iterator) (acc : list (option (entry T)))
    (k : res (list (option (entry T))) -> prog) : prog :=
  match fuel with
  | O => k Panic
  | S fuel' =>
      let '(it, more) := iter_next it in
      if more then
        match iter_id it with
        | Ok key => Read (fun d => p_values fuel' it (acc ++ [t_map d !! key]) k)
        | Err x => k (Err x)
        | Panic => k Panic
        end
      else k (Ok acc)
  end.

(** r.m.RLock(); defer r.m.RUnlock() (table.go:56-57) and r.m.Lock(); defer
    r.m.Unlock() (table.go:71-72). *)
Definition rlocked (body : (out T -> prog) -> prog) : prog := RLock (body (fun x => RUnlock (Ret x))).
Definition locked (body : (out T -> prog) -> prog) : prog := Lock (body (fun x => Unlock (Ret x))).

(** The methods: table.go:55-68 Get, 70-75 Claim, 77-90 ClaimDynamic, 92-108
    ClaimRange, 110-129 ClaimSize, 131-136 Release, 138-143 Update, 145-150
    Iterate, 164-169 IterateFree, 191-196 Size, 197-203 Has, 205-209 IsFree,
    216-223 FindFree, 225-229 FindFreeRange, 263-267 FindFreeSize, 316-327 GetAll.
    The ids of an iterator (Iterate, IterateFree) are its own copy: they are
    listed without further access to the table. *)
Definition method (o : op T) : prog :=
  match o with
  | OGet id => rlocked (fun ret => p_validate id (fun v =>
      match v with
      | Ok _ => Read (fun d => ret (REntry (match t_map d !! id with Some e => Ok e | None => Err ENoEntry end)))
      | Err x => ret (REntry (Err x))
      | Panic => ret (REntry Panic)
      end))
  | OClaim id d => locked (fun ret => p_add (NewEntry id d) (fun x => ret (RUnit x)))
  | OClaimDynamic d => locked (fun ret => p_iterate_free (fun free =>
      let '(free, more) := iter_next free in
      if more then
        match iter_id free with
        | Ok fid =>
            let e := NewEntry fid d in
            p_add e (fun v => ret (REntry (match v with Ok _ => Ok e | Err x => Err x | Panic => Panic end)))
        | Err x => ret (REntry (Err x))
        | Panic => ret (REntry Panic)
        end
      else ret (REntry (Err ENoFree))))
  | OClaimRange s n d => locked (fun ret => p_find_free_range s n (fun ids =>
      match ids with
      | Ok ids => p_add_all ids d (fun x => ret (RUnit x))
      | Err x => ret (RUnit (Err x))
      | Panic => ret (RUnit Panic)
      end))
  | OClaimSize n d => locked (fun ret => p_find_free_size n (fun ids =>
      match ids with
      | Ok ids => p_add_all_entries ids d [] (fun x => ret (REntries x))
      | Err x => ret (REntries (Err x))
      | Panic => ret (REntries Panic)
      end))
  | ORelease id => locked (fun ret => p_delete id (fun x => ret (RUnit x)))
  | OUpdate id d => locked (fun ret => p_update (NewEntry id d) (fun x => ret (RUnit x)))
  | OIterate => rlocked (fun ret => p_iterate (fun it => ret (RIds (iter_all it))))
  | OIterateFree => rlocked (fun ret => p_iterate_free (fun it => ret (RIds (iter_all it))))
  | OSize => rlocked (fun ret => Read (fun d => ret (RInt (size (t_map d)))))
  | OHas id => rlocked (fun ret => Read (fun d =>
      ret (RBool (match t_map d !! id with Some _ => true | None => false end))))
  | OIsFree id => rlocked (fun ret => p_is_free id (fun b => ret (RBool b)))
  | OFindFree => rlocked (fun ret => p_iterate_free (fun free =>
      ret (RId (let '(free, more) := iter_next free in if more then iter_id free else Err ENoFree))))
  | OFindFreeRange s n => rlocked (fun ret => p_find_free_range s n (fun ids => ret (RIds ids)))
  | OFindFreeSize n => rlocked (fun ret => p_find_free_size n (fun ids => ret (RIds ids)))
  | OGetAll => rlocked (fun ret =>
      (* the call of Iterate at table.go:322 locks and unlocks again *)
      RLock (p_iterate (fun it => RUnlock (
        p_values (S (length (it_keys it))) it [] (fun vs => ret (RValues vs))))))
  end.

(** A goroutine that calls the methods of the table itself. *)
Definition direct (o : op T) : client (table T) (out T) (op T) (out T) := CCall o (fun r => CRet r).

(** A goroutine that lists the table with an iterator: it = r.Iterate(), then
    it.Value() for every it.Next().  iterator.go:9-11 [Value] reads the map of the
    table, not a copy, and does not lock. *)
Fixpoint c_values (keys : list N) (vs : list (option (entry T))) : client (table T) (out T) (op T) (out T) :=
  match keys with
  | [] => CRet (RValues (Ok vs))
  | key :: keys' => CPeek (fun d => c_values keys' (vs ++ [t_map d !! key]))
  end.
Definition iterate_values : client (table T) (out T) (op T) (out T) :=
  CCall OIterate (fun x =>
    match x with
    | RIds (Ok keys) => c_values keys []
    | RIds (Err e) => CRet (RValues (Err e))
    | _ => CRet (RValues Panic)
    end).
End methods.
