(** The calls of tree16, tree32 and tree64 as concurrent programs.  Line numbers
    are those of tree16.go (see GTreeModel.v); size and length are never written
    and are taken from a tree [g0] whose contents are not used. *)
From Verif Require Export ConcModel GTreeModel.

Section GTreeConc.
Context {L : Type} (lstr : L -> string) (c : gcfg).
Notation entry := (tentry L).
Notation val := (option (tentry L)).
Notation gtree := (gtree L).

(** What a locked region of tree16.go returns: 43 Get, 176 Children, 193 Parents,
    112 set, 168 del, 243 Iterate. *)
Inductive gout : Type :=
| OutEntry (x : res entry) | OutVals (x : res (list val)) | OutUnit (x : res unit) | OutNodes (n : N).
Notation prog := (prog gtree gout).

(** The locked regions (tree16.go:43-55, 176-191, 193-206, 243-250, 63-65, 74-76,
    86-91, 149-151, 157-165), and [set] without the lock (ClaimRange,
    tree16.go:105). *)
Inductive gmeth : Type :=
| MGet (x : id)
| MChildren (x : id)
| MParents (x : id)
| MIterate
| MSet (x : id) (e : entry)
| MDel (x : id) (v : val)
| MDelAll (es : list val)
| MSetUnlocked (x : id) (e : entry).

(** [for iter.Next() { body }] (tree16.go:48-53, 183-189, 199-204): what one
    iteration reads is one read. *)
Fixpoint p_loop {A : Type} (fuel : nat) (body : gtree -> iter -> A -> res (A * bool)) (a : A) (it : iter)
    (k : res A -> prog) : prog :=
  match fuel with
  | O => k Panic
  | S fuel' =>
      Read (fun g =>
        match iter_next (g_tree g) it with
        | Ok x =>
            if snd x then
              match body g (fst x) a with
              | Ok r => if snd r then k (Ok (fst r)) else p_loop fuel' body (fst r) (fst x) k
              | Err e => k (Err e)
              | Panic => k Panic
              end
            else k (Ok a)
        | Err e => k (Err e)
        | Panic => k Panic
        end)
  end.
(** A loop in a method that holds the read lock: the lock (tree16.go:44, 178,
    195), then [Iterate], 243-250, which takes it again, then the loop.  A panic unlocks
    (defer). *)
Definition p_for {A : Type} (body : gtree -> iter -> A -> res (A * bool)) (a : A) (f : res A -> gout) : prog :=
  RLock (RLock (Read (fun g => RUnlock
    (p_loop (S (N.to_nat (t_n (g_tree g)))) body a iterate (fun r => RUnlock (Ret (f r))))))).

(** The bodies of the loops, as in GTreeModel.v (tree16.go:48-53, 183-189,
    199-204). *)
Definition get_body (x : id) (g : gtree) (it : iter) (_ : option entry) : res (option entry * bool) :=
  do v <- it_entry g it;
  do e <- non_nil v;
  if (te_id e =? i_id x) && (te_len e =? i_len x) then Ok (Some e, true) else Ok (None, false).
Definition children_body (x : id) (g : gtree) (it : iter) (es : list val) : res (list val * bool) :=
  do v <- it_entry g it;
  do e <- non_nil v;
  do o <- overlaps (gc_id c) (eid e) x;
  Ok (if o && (i_len x <? te_len e) then es ++ [v] else es, false).
Definition parents_body (x : id) (g : gtree) (it : iter) (es : list val) : res (list val * bool) :=
  do v <- it_entry g it;
  do e <- non_nil v;
  do o <- overlaps (gc_id c) (eid e) x;
  Ok (if o && (te_len e <? id_w (gc_id c)) then es ++ [v] else es, false).

(** A modification: the read finds out whether it panics; a panic leaves the
    tree as it was (simplification). *)
Definition p_modify (f : gtree -> res gtree) (k : res unit -> prog) : prog :=
  Read (fun g => Write (fun g => match f g with Ok g' => g' | _ => g end) (k (do _ <- f g; Ok tt))).

(** tree16.go:160-164. *)
Fixpoint p_del_all (es : list val) (k : res unit -> prog) : prog :=
  match es with
  | [] => k (Ok tt)
  | v :: es' =>
      match non_nil v with
      | Ok e =>
          p_modify (fun g => g_del lstr c g (eid e) v) (fun u =>
            match u with Ok _ => p_del_all es' k | _ => k u end)
      | Err x => k (Err x)
      | Panic => k Panic
      end
  end.

(** The locked regions of tree16.go, at the lines given. *)
Definition gmethod (o : gmeth) : prog :=
  match o with
  | MGet x => (* 44-54 *)
      p_for (get_body x) None (fun r => OutEntry (do o <- r; match o with Some e => Ok e | None => Err ENotFound end))
  | MChildren x => p_for (children_body x) [] OutVals (* 178-190 *)
  | MParents x => p_for (parents_body x) [] OutVals (* 195-205 *)
  | MIterate => (* 243-250; the number of nodes is not part of the iterator, it bounds the loops *)
      RLock (Read (fun g => RUnlock (Ret (OutNodes (t_n (g_tree g))))))
  | MSet x e => (* 63-65, 74-76, 86-91 *)
      Lock (p_modify (fun g => g_set c g x e) (fun u => Unlock (Ret (OutUnit u))))
  | MDel x v => (* 149-151 *)
      Lock (p_modify (fun g => g_del lstr c g x v) (fun u => Unlock (Ret (OutUnit u))))
  | MDelAll es => Lock (p_del_all es (fun u => Unlock (Ret (OutUnit u)))) (* 157-165 *)
  | MSetUnlocked x e => p_modify (fun g => g_set c g x e) (fun u => Ret (OutUnit u)) (* 105 *)
  end.

(** The calls of the interface (gtree.go:10-27) and their results. *)
Inductive gcall : Type :=
| CGet (x : id) | CUpdate (x : id) (l : L) | CClaimID (x : id) (l : L) | CClaimFree (l : L)
| CClaimRange (s : string) (l : L) | CReleaseID (x : id) | CReleaseByLabel (sel : L -> bool)
| CChildren (x : id) | CParents (x : id) | CGetByLabel (sel : L -> bool) | CGetAll | CSize.
Inductive gcout : Type :=
| GREntry (x : res entry) | GRVals (x : res (list val)) | GRUnit (x : res unit) | GRSize (x : res N).
Notation client := (client gtree gout gmeth gcout).

(** The results of the regions, as Go values; a result of another type does not
    occur. *)
Definition as_gentry (x : gout) : res entry := match x with OutEntry v => v | _ => Panic end.
Definition as_vals (x : gout) : res (list val) := match x with OutVals v => v | _ => Panic end.
Definition as_done (x : gout) : res unit := match x with OutUnit v => v | _ => Panic end.
Definition as_nodes (x : gout) : N := match x with OutNodes n => n | _ => 0 end.

(** tree16.go:123-138, what findFree does with the children. *)
Definition find_free_in (g0 : gtree) (b : builder) (es : list val) : res N :=
  do b <- remove_all c b es;
  do s <- ip_set (gc_id c) b;
  match snd (snd s) with
  | e :: _ => Err e
  | [] =>
      do f <- remove_free_prefix (gc_id c) (fst (snd s)) (id_w (gc_id c));
      match f with
      | None => Err ENoFreeId
      | Some (x, _) => do _ <- g_validate g0 x; Ok (uwrap (id_w (gc_id c)) (i_id x))
      end
  end.
(** tree16.go:117-139 [findFree]. *)
Definition c_g_find_free (g0 : gtree) (k : res N -> client) : client :=
  let root := MyId 0 (gc_root c (g_length g0)) in
  match add_id (gc_id c) builder_zero root with
  | Ok b => CCall (MChildren root) (fun x => k (do es <- as_vals x; find_free_in g0 b es))
  | Err e => k (Err e)
  | Panic => k Panic
  end.

(** tree16.go:103-108. *)
Fixpoint c_set_all (ids : list id) (l : L) : client :=
  match ids with
  | [] => CRet (GRUnit (Ok tt))
  | x :: ids' =>
      CCall (MSetUnlocked x (new_entry x l)) (fun u =>
        match as_done u with Ok _ => c_set_all ids' l | v => CRet (GRUnit v) end)
  end.

(** A loop [for iter.Next() { body }] after Iterate has returned (tree16.go:212-216,
    225-227, 236-238): nothing is locked.
    One Next is one read of the tree (simplification: it reads several nodes). *)
Fixpoint c_loop {A : Type} (fuel : nat) (body : iter -> A -> (res A -> client) -> client) (a : A) (it : iter)
    (k : res A -> client) : client :=
  match fuel with
  | O => k Panic
  | S fuel' =>
      CPeek (fun g =>
        match iter_next (g_tree g) it with
        | Ok x =>
            if snd x then
              body (fst x) a (fun r =>
                match r with Ok a' => c_loop fuel' body a' (fst x) k | Err e => k (Err e) | Panic => k Panic end)
            else k (Ok a)
        | Err e => k (Err e)
        | Panic => k Panic
        end)
  end.
(** [iter := r.Iterate()] (tree16.go:211, 224, 235) and the loop.  Simplification: it makes at most as many
    rounds as the tree had nodes when the iterator was made; alone it never makes
    more. *)
Definition c_for {A : Type} (body : iter -> A -> (res A -> client) -> client) (a : A) (k : res A -> client) : client :=
  CCall MIterate (fun n => c_loop (S (N.to_nat (as_nodes n))) body a iterate k).
(** tree16.go:212-215: one Entry() for the labels and one for the result. *)
Definition c_label_body (sel : L -> bool) (it : iter) (es : list val) (k : res (list val) -> client) : client :=
  CPeek (fun g =>
    match (do v <- it_entry g it; non_nil v) with
    | Ok e => if sel (te_labels e) then CPeek (fun g => k (do v <- it_entry g it; Ok (es ++ [v]))) else k (Ok es)
    | Err e => k (Err e)
    | Panic => k Panic
    end).
(** tree16.go:225-227. *)
Definition c_all_body (it : iter) (es : list val) (k : res (list val) -> client) : client :=
  CPeek (fun g => k (do v <- it_entry g it; Ok (es ++ [v]))).
(** tree16.go:236-238. *)
Definition c_size_body (it : iter) (n : N) (k : res N -> client) : client := k (Ok (n + 1)).

(** The calls, at the lines of tree16.go given. *)
Definition gcall_client (g0 : gtree) (o : gcall) : client :=
  match o with
  | CGet x => CCall (MGet x) (fun r => CRet (GREntry (as_gentry r))) (* 43-55 *)
  | CUpdate x l | CClaimID x l => (* 57-66, 68-77 *)
      match g_validate g0 x with
      | Ok _ => CCall (MSet x (new_entry x l)) (fun u => CRet (GRUnit (as_done u)))
      | Err e => CRet (GRUnit (Err e))
      | Panic => CRet (GRUnit Panic)
      end
  | CClaimFree l => (* 79-92 *)
      c_g_find_free g0 (fun v =>
        match v with
        | Ok v =>
            let x := MyId v (id_w (gc_id c)) in
            CCall (MSet x (new_entry x l)) (fun u => CRet (GREntry (do _ <- as_done u; Ok (new_entry x l))))
        | Err e => CRet (GREntry (Err e))
        | Panic => CRet (GREntry Panic)
        end)
  | CClaimRange s l => (* 94-110 *)
      match (do r <- parse_range (gc_id c) s; range_ids (gc_id c) r) with
      | Ok ids => c_set_all ids l
      | Err e => CRet (GRUnit (Err e))
      | Panic => CRet (GRUnit Panic)
      end
  | CReleaseID x => (* 141-152 *)
      match g_validate g0 x with
      | Ok _ =>
          CCall (MGet x) (fun r =>
            match as_gentry r with
            | Ok e => CCall (MDel x (Some e)) (fun u => CRet (GRUnit (as_done u)))
            | Err _ => CRet (GRUnit (Ok tt))
            | Panic => CRet (GRUnit Panic)
            end)
      | Err e => CRet (GRUnit (Err e))
      | Panic => CRet (GRUnit Panic)
      end
  | CReleaseByLabel sel => (* 154-166 *)
      c_for (c_label_body sel) [] (fun r =>
        match r with
        | Ok es => CCall (MDelAll es) (fun u => CRet (GRUnit (as_done u)))
        | Err e => CRet (GRUnit (Err e))
        | Panic => CRet (GRUnit Panic)
        end)
  | CChildren x => CCall (MChildren x) (fun r => CRet (GRVals (as_vals r))) (* 176-191 *)
  | CParents x => CCall (MParents x) (fun r => CRet (GRVals (as_vals r))) (* 193-206 *)
  | CGetByLabel sel => c_for (c_label_body sel) [] (fun r => CRet (GRVals r)) (* 208-219 *)
  | CGetAll => c_for c_all_body [] (fun r => CRet (GRVals r)) (* 221-230 *)
  | CSize => c_for c_size_body 0 (fun r => CRet (GRSize r)) (* 232-241 *)
  end.

(** Goroutines that call a tree. *)
Definition g_system (g0 : gtree) (todo : list (list gcall)) : sys gtree gout gmeth gcout :=
  start g0 (map (map (gcall_client g0)) todo).
End GTreeConc.
Arguments gout : clear implicits.
Arguments gmeth : clear implicits.
Arguments gcall : clear implicits.
Arguments gcout : clear implicits.
