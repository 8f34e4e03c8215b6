(** Model of pkg/idxtable (table.go, iterator.go, entry.go). *)
From Verif Require Export GoBase.

Section idxtable.
Context {T : Type}.

(** entry.go:8-12 [entry], entry.go:15-16 (ID, Data), entry.go:18-23 [NewEntry]. *)
Record entry : Type := NewEntry { e_id : N; e_data : T }.

(** table.go:42-46 [table]; the mutex is modelled in ConcModel.v. *)
Record table : Type := Table { t_size : N; t_map : gmap N entry }.

(** table.go:32-40 [NewTable]. *)
Definition new_table (size : N) : table := Table size ∅.

(** table.go:48-53 [validate]; note the wrap-around of [r.size-1]. *)
Definition validate (r : table) (id : N) : res unit :=
  if usub 64 (t_size r) 1 <? id then Err EIdTooBig else Ok tt.

(** table.go:211-214 [isFree]. *)
Definition is_free (r : table) (id : N) : bool :=
  match t_map r !! id with Some _ => false | None => true end.

(** table.go:286-295 [add]. *)
Definition add (r : table) (e : entry) : table * res unit :=
  match validate r (e_id e) with
  | Ok _ =>
      if negb (is_free r (e_id e)) then (r, Err EExists)
      else (Table (t_size r) (<[e_id e := e]> (t_map r)), Ok tt)
  | Err x => (r, Err x)
  | Panic => (r, Panic)
  end.

(** table.go:297-306 [update]. *)
Definition update (r : table) (e : entry) : table * res unit :=
  match validate r (e_id e) with
  | Ok _ =>
      if is_free r (e_id e) then (r, Err ENotCreated)
      else (Table (t_size r) (<[e_id e := e]> (t_map r)), Ok tt)
  | Err x => (r, Err x)
  | Panic => (r, Panic)
  end.

(** table.go:308-314 [delete]. *)
Definition delete_ (r : table) (id : N) : table * res unit :=
  match validate r id with
  | Ok _ => (Table (t_size r) (delete id (t_map r)), Ok tt)
  | Err x => (r, Err x)
  | Panic => (r, Panic)
  end.

(** iterator.go:3-7 [Iterator].  The [table] field of the Go struct is a
    reference to the live map of the table; the model passes the live map to
    [iter_value] instead of storing it. *)
Record iterator : Type := Iterator { it_current : N; it_keys : list N }.

(** iterator.go:17-20 [Next]. *)
Definition iter_next (it : iterator) : iterator * bool :=
  let c := uadd 64 (it_current it) 1 in
  (Iterator c (it_keys it), c <? N.of_nat (length (it_keys it))).

(** iterator.go:13-15 [ID]; indexing out of range panics. *)
Definition iter_id (it : iterator) : res N :=
  match it_keys it !! N.to_nat (it_current it) with
  | Some k => Ok k
  | None => Panic
  end.

(** iterator.go:9-11 [Value]; [live] is the table's map at the time of the
    call; the result is nil ([None]) when the id is no longer in the map. *)
Definition iter_value (live : gmap N entry) (it : iterator) : res (option entry) :=
  do k <- iter_id it; Ok (live !! k).

(** iterator.go:22-27 [IsConsecutive]. *)
Definition iter_is_consecutive (it : iterator) : res bool :=
  if it_current it <? 1 then Ok false
  else
    match it_keys it !! N.to_nat (usub 64 (it_current it) 1),
          it_keys it !! N.to_nat (it_current it) with
    | Some a, Some b => Ok (a =? usub 64 b 1)
    | _, _ => Panic
    end.

(** sort.Slice(keys, keys[i] < keys[j]) at table.go:157-159 and 184-186. *)
Definition sort_keys (keys : list N) : list N := merge_sort N.le keys.

(** table.go:152-162 [iterate]. *)
Definition iterate (r : table) : iterator :=
  Iterator (2 ^ 64 - 1) (sort_keys (map fst (map_to_list (t_map r)))).

(** table.go:177-183, the loop [for id := 0; id < r.size; id++]; [n] is the
    number of iterations left, [id] the loop variable. *)
Fixpoint free_loop (m : gmap N entry) (n : nat) (id : N) : list N :=
  match n with
  | O => []
  | S n' =>
      match m !! id with
      | Some _ => free_loop m n' (id + 1)
      | None => id :: free_loop m n' (id + 1)
      end
  end.

(** table.go:171-189 [iterateFree]. *)
Definition iterate_free (r : table) : iterator :=
  Iterator (2 ^ 64 - 1) (sort_keys (free_loop (t_map r) (N.to_nat (t_size r)) 0)).

(** table.go:243-259, the loop of [findFreeRange]. Fuel exhaustion is [Panic]. *)
Fixpoint find_free_range_loop (fuel : nat) (it : iterator) (start end_ : N)
    (entries : list N) : res (list N) :=
  match fuel with
  | O => Panic
  | S fuel' =>
      let '(it, more) := iter_next it in
      if more then
        do fid <- iter_id it;
        if fid <? start then find_free_range_loop fuel' it start end_ entries
        else if fid =? start then
          find_free_range_loop fuel' it start end_ (entries ++ [fid])
        else if (start <? fid) && (fid <? end_) then
          do c <- iter_is_consecutive it;
          if negb c then Err EInUse
          else find_free_range_loop fuel' it start end_ (entries ++ [fid])
        else Ok (entries ++ [fid])
      else Err ENoRange
  end.

(** table.go:231-261 [findFreeRange]. *)
Definition find_free_range (r : table) (start size : N) : res (list N) :=
  let end_ := usub 64 (uadd 64 start size) 1 in
  if usub 64 (t_size r) 1 <? start then Err EStartTooBig
  else if usub 64 (t_size r) 1 <? end_ then Err EEndTooBig
  else
    let free := iterate_free r in
    find_free_range_loop (S (length (it_keys free))) free start end_ [].

(** table.go:276-282, the loop of [findFreeSize]. *)
Fixpoint find_free_size_loop (fuel : nat) (it : iterator) (i size : N)
    (entries : list N) : res (list N) :=
  match fuel with
  | O => Panic
  | S fuel' =>
      let '(it, more) := iter_next it in
      if more then
        let i := uadd 64 i 1 in
        do fid <- iter_id it;
        let entries := entries ++ [fid] in
        if usub 64 size 1 <? i then Ok entries
        else find_free_size_loop fuel' it i size entries
      else Err ENoSize
  end.

(** table.go:269-284 [findFreeSize]. *)
Definition find_free_size (r : table) (size : N) : res (list N) :=
  if t_size r <? size then Err ESizeTooBig
  else
    let free := iterate_free r in
    find_free_size_loop (S (length (it_keys free))) free 0 size [].

(** table.go:55-68 [Get]. *)
Definition get (r : table) (id : N) : res entry :=
  do _u <- validate r id;
  match t_map r !! id with
  | Some e => Ok e
  | None => Err ENoEntry
  end.

(** table.go:70-75 [Claim]. *)
Definition claim (r : table) (id : N) (d : T) : table * res unit :=
  add r (NewEntry id d).

(** table.go:77-90 [ClaimDynamic]. *)
Definition claim_dynamic (r : table) (d : T) : table * res entry :=
  let '(free, more) := iter_next (iterate_free r) in
  if more then
    match iter_id free with
    | Ok fid =>
        let e := NewEntry fid d in
        match add r e with
        | (r', Ok _) => (r', Ok e)
        | (r', Err x) => (r', Err x)
        | (r', Panic) => (r', Panic)
        end
    | Err x => (r, Err x)
    | Panic => (r, Panic)
    end
  else (r, Err ENoFree).

(** table.go:100-106, the loop of [ClaimRange]. *)
Fixpoint add_all (r : table) (ids : list N) (d : T) : table * res unit :=
  match ids with
  | [] => (r, Ok tt)
  | id :: ids' =>
      match add r (NewEntry id d) with
      | (r', Ok _) => add_all r' ids' d
      | (r', x) => (r', x)
      end
  end.

(** table.go:92-108 [ClaimRange]. *)
Definition claim_range (r : table) (start size : N) (d : T) : table * res unit :=
  match find_free_range r start size with
  | Ok ids => add_all r ids d
  | Err x => (r, Err x)
  | Panic => (r, Panic)
  end.

(** table.go:118-127, the loop of [ClaimSize], accumulating the entries. *)
Fixpoint add_all_entries (r : table) (ids : list N) (d : T) (acc : list entry)
    : table * res (list entry) :=
  match ids with
  | [] => (r, Ok acc)
  | id :: ids' =>
      let e := NewEntry id d in
      match add r e with
      | (r', Ok _) => add_all_entries r' ids' d (acc ++ [e])
      | (r', Err x) => (r', Err x)
      | (r', Panic) => (r', Panic)
      end
  end.

(** table.go:110-129 [ClaimSize]. *)
Definition claim_size (r : table) (size : N) (d : T) : table * res (list entry) :=
  match find_free_size r size with
  | Ok ids => add_all_entries r ids d []
  | Err x => (r, Err x)
  | Panic => (r, Panic)
  end.

(** table.go:131-136 [Release]. *)
Definition release (r : table) (id : N) : table * res unit := delete_ r id.

(** table.go:138-143 [Update]. *)
Definition update_op (r : table) (id : N) (d : T) : table * res unit :=
  update r (NewEntry id d).

(** table.go:191-196 [Size] (len of the map). *)
Definition size_op (r : table) : nat := size (t_map r).

(** table.go:197-203 [Has]; no range check. *)
Definition has (r : table) (id : N) : bool :=
  match t_map r !! id with Some _ => true | None => false end.

(** table.go:205-209 [IsFree]; no range check. *)
Definition is_free_op (r : table) (id : N) : bool := is_free r id.

(** table.go:216-223 [FindFree]. *)
Definition find_free (r : table) : res N :=
  let '(free, more) := iter_next (iterate_free r) in
  if more then iter_id free else Err ENoFree.

(** Draining an iterator (iterator.go:9-20, table.go:322-325): [for iter.Next() { ... iter.ID() / iter.Value() }].
    [fuel] bounds the number of Next calls; exhaustion is [Panic]. *)
Fixpoint drain (fuel : nat) (it : iterator) : res (list N) :=
  match fuel with
  | O => Panic
  | S fuel' =>
      let '(it, more) := iter_next it in
      if more then
        do k <- iter_id it;
        do ks <- drain fuel' it;
        Ok (k :: ks)
      else Ok []
  end.

Fixpoint drain_values (fuel : nat) (live : gmap N entry) (it : iterator)
    : res (list (option entry)) :=
  match fuel with
  | O => Panic
  | S fuel' =>
      let '(it, more) := iter_next it in
      if more then
        do v <- iter_value live it;
        do vs <- drain_values fuel' live it;
        Ok (v :: vs)
      else Ok []
  end.

(** All ids yielded by an iterator from its current position to the end. *)
Definition iter_all (it : iterator) : res (list N) :=
  drain (S (length (it_keys it))) it.

(** table.go:316-327 [GetAll]; an element is [None] when [Value] returned nil. *)
Definition get_all (r : table) : res (list (option entry)) :=
  let it := iterate r in
  drain_values (S (length (it_keys it))) (t_map r) it.

(** One call of the [Table] interface (table.go:9-30) and its result. *)
Inductive op : Type :=
| OGet (id : N) | OClaim (id : N) (d : T) | OClaimDynamic (d : T)
| OClaimRange (start size : N) (d : T) | OClaimSize (size : N) (d : T)
| ORelease (id : N) | OUpdate (id : N) (d : T)
| OIterate | OIterateFree | OSize | OHas (id : N) | OIsFree (id : N)
| OFindFree | OFindFreeRange (start size : N) | OFindFreeSize (size : N)
| OGetAll.

(** What the calls of table.go:9-30 return. *)
Inductive out : Type :=
| RUnit (r : res unit) | REntry (r : res entry) | REntries (r : res (list entry))
| RIds (r : res (list N)) | RId (r : res N) | RBool (b : bool) | RInt (n : nat)
| RValues (r : res (list (option entry))).

(** One sequential call (table.go:9-30).  For [Iterate]/[IterateFree] the observable is the
    list of ids obtained by draining the returned iterator right away. *)
Definition step (r : table) (o : op) : table * out :=
  match o with
  | OGet id => (r, REntry (get r id))
  | OClaim id d => let '(r', x) := claim r id d in (r', RUnit x)
  | OClaimDynamic d => let '(r', x) := claim_dynamic r d in (r', REntry x)
  | OClaimRange s n d => let '(r', x) := claim_range r s n d in (r', RUnit x)
  | OClaimSize n d => let '(r', x) := claim_size r n d in (r', REntries x)
  | ORelease id => let '(r', x) := release r id in (r', RUnit x)
  | OUpdate id d => let '(r', x) := update_op r id d in (r', RUnit x)
  | OIterate => (r, RIds (iter_all (iterate r)))
  | OIterateFree => (r, RIds (iter_all (iterate_free r)))
  | OSize => (r, RInt (size_op r))
  | OHas id => (r, RBool (has r id))
  | OIsFree id => (r, RBool (is_free_op r id))
  | OFindFree => (r, RId (find_free r))
  | OFindFreeRange s n => (r, RIds (find_free_range r s n))
  | OFindFreeSize n => (r, RIds (find_free_size r n))
  | OGetAll => (r, RValues (get_all r))
  end.

(** State after a sequence of calls, and the list of their results. *)
Fixpoint run (r : table) (os : list op) : table * list out :=
  match os with
  | [] => (r, [])
  | o :: os' =>
      let '(r1, x) := step r o in
      let '(r2, xs) := run r1 os' in (r2, x :: xs)
  end.

End idxtable.

Arguments entry : clear implicits.
Arguments table : clear implicits.
Arguments op : clear implicits.
Arguments out : clear implicits.
