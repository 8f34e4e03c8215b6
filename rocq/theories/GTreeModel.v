(** Model of pkg/tree/tree16, tree32, tree64 (treeN.go) and pkg/tree/gtree.  The
    three packages are the same program over different constants; what differs is
    in [gcfg].  Line numbers are those of tree16.go unless another file is named.
    The locks are not modelled here: every function runs alone (see ConcModel.v
    for interleavings).  PrintNodes and PrintValues are in TreePrintModel.v. *)
From Verif Require Export TreeEntry IdSetModel TreeModel.

(** Where tree16.go, tree32.go and tree64.go differ. *)
Record gcfg : Type := GCfg {
  gc_id : idcfg;               (* the package of the ids *)
  gc_root : N -> N }.          (* the length of rootID in findFree *)

(** tree16.go:118; tree32.go:118; tree64.go:119. *)
Definition cfg_tree16 : gcfg := GCfg cfg_id16 (fun len => usub 8 16 len).
Definition cfg_tree32 : gcfg := GCfg cfg_id32 (fun len => len).
Definition cfg_tree64 : gcfg := GCfg cfg_id64 (fun len => usub 8 64 len).

Section GTree.
Context {L : Type} (lstr : L -> string).
Notation entry := (tentry L).
(** A stored value is a tree.Entry, an interface; the zero value of the map is
    nil, here None. *)
Notation val := (option (tentry L)).
Notation zero := (@None (tentry L)).

(** tree16.go:27-32 [tree16] without the lock. *)
Record gtree : Type := GTree { g_tree : tree val; g_size : N; g_length : N }.
Definition with_tree (g : gtree) (t : tree val) : gtree := GTree t (g_size g) (g_length g).

(** tree16.go:15-25 [New]; the shift and the subtraction are on uintN. *)
Definition g_new (c : gcfg) (len : N) : res gtree :=
  let w := id_w (gc_id c) in
  if w <? len then Err ELengthTooBig
  else Ok (GTree (tree_zero (gc_id c)) (usub w (ushl w 1 len) 1) len).

(** tree16.go:34-41 [Clone]. *)
Definition g_clone (g : gtree) : gtree := with_tree g (clone (g_tree g)).

(** tree16.go:252-260 [validate]; the second test, Length() < uint8(0), is never true. *)
Definition g_validate (g : gtree) (x : id) : res unit :=
  if g_size g <? i_id x then Err EMaxId else Ok tt.

(** pkg/tree/entry.go:34-39 [NewEntry]. *)
Definition new_entry (x : id) (l : L) : entry := TEntry (i_id x) (i_len x) l.
(** entry.go:22 [ID]. *)
Definition eid (e : entry) : id := MyId (te_id e) (te_len e).

(** gtree.go:37-41 [Entry]: Vals()[0]. *)
Definition it_entry (g : gtree) (it : iter) : res val :=
  do vs <- iter_vals zero (g_tree g) it;
  match vs with [] => Panic | v :: _ => Ok v end.
(** A method call on an entry; on nil it panics. *)
Definition non_nil (v : val) : res entry := match v with Some e => Ok e | None => Panic end.

(** [for iter.Next() { body }] (tree16.go:48, 183, 199, 212, 225, 236;
    gtree.go:33-35 [Next]); the body gives the new value of the loop's
    variables and whether it returns.  Out of fuel is Panic. *)
Fixpoint g_loop {A : Type} (fuel : nat) (g : gtree) (body : iter -> A -> res (A * bool)) (a : A) (it : iter)
    : res A :=
  match fuel with
  | O => Panic
  | S fuel' =>
      do x <- iter_next (g_tree g) it;
      if snd x then
        do r <- body (fst x) a;
        if snd r then Ok (fst r) else g_loop fuel' g body (fst r) (fst x)
      else Ok a
  end.
(** tree16.go:243-250 [Iterate], and the loop on the new iterator; it stops at most once at
    every node. *)
Definition g_for {A : Type} (g : gtree) (body : iter -> A -> res (A * bool)) (a : A) : res A :=
  g_loop (S (N.to_nat (t_n (g_tree g)))) g body a iterate.

(** tree16.go:43-55 [Get]. *)
Definition g_get (g : gtree) (x : id) : res entry :=
  do r <- g_for g (fun it _ =>
            do v <- it_entry g it;
            do e <- non_nil v;
            if (te_id e =? i_id x) && (te_len e =? i_len x) then Ok (Some e, true) else Ok (None, false))
          None;
  match r with Some e => Ok e | None => Err ENotFound end.

(** tree16.go:112-115 [set]. *)
Definition g_set (c : gcfg) (g : gtree) (x : id) (e : entry) : res gtree :=
  do a <- tree_Set zero (gc_id c) (g_tree g) x (Some e); Ok (with_tree g (fst a)).

(** tree16.go:57-66 [Update]. *)
Definition g_update (c : gcfg) (g : gtree) (x : id) (l : L) : res gtree :=
  do _ <- g_validate g x; g_set c g x (new_entry x l).

(** tree16.go:68-77 [ClaimID]. *)
Definition g_claim_id (c : gcfg) (g : gtree) (x : id) (l : L) : res gtree :=
  do _ <- g_validate g x; g_set c g x (new_entry x l).

(** tree16.go:103-108, the loop of [ClaimRange]. *)
Fixpoint set_all (c : gcfg) (g : gtree) (ids : list id) (l : L) : res gtree :=
  match ids with
  | [] => Ok g
  | x :: ids' => do g' <- g_set c g x (new_entry x l); set_all c g' ids' l
  end.
(** tree16.go:94-110 [ClaimRange]. *)
Definition g_claim_range (c : gcfg) (g : gtree) (s : string) (l : L) : res gtree :=
  do r <- parse_range (gc_id c) s;
  do ids <- range_ids (gc_id c) r;
  set_all c g ids l.

(** tree16.go:208-219 [GetByLabel]; sel is selector.Matches. *)
Definition g_get_by_label (g : gtree) (sel : L -> bool) : res (list val) :=
  g_for g (fun it es =>
    do v <- it_entry g it;
    do e <- non_nil v;
    Ok (if sel (te_labels e) then es ++ [v] else es, false)) [].

(** tree16.go:221-230 [GetAll]. *)
Definition g_get_all (g : gtree) : res (list val) :=
  g_for g (fun it es => do v <- it_entry g it; Ok (es ++ [v], false)) [].

(** tree16.go:232-241 [Size]. *)
Definition g_Size (g : gtree) : res N :=
  g_for g (fun _ n => Ok (n + 1, false)) 0.

(** tree16.go:176-191 [Children]. *)
Definition g_children (c : gcfg) (g : gtree) (x : id) : res (list val) :=
  g_for g (fun it es =>
    do v <- it_entry g it;
    do e <- non_nil v;
    do o <- overlaps (gc_id c) (eid e) x;
    Ok (if o && (i_len x <? te_len e) then es ++ [v] else es, false)) [].

(** tree16.go:193-206 [Parents]. *)
Definition g_parents (c : gcfg) (g : gtree) (x : id) : res (list val) :=
  g_for g (fun it es =>
    do v <- it_entry g it;
    do e <- non_nil v;
    do o <- overlaps (gc_id c) (eid e) x;
    Ok (if o && (te_len e <? id_w (gc_id c)) then es ++ [v] else es, false)) [].

(** tree16.go:123-125: RemoveId for every child. *)
Fixpoint remove_all (c : gcfg) (b : builder) (es : list val) : res builder :=
  match es with
  | [] => Ok b
  | v :: es' =>
      do e <- non_nil v;
      do b' <- remove_id (gc_id c) b (eid e);
      remove_all c b' es'
  end.
(** tree16.go:117-139 [findFree]; an error of IPSet is returned as it is. *)
Definition g_find_free (c : gcfg) (g : gtree) : res N :=
  let root := MyId 0 (gc_root c (g_length g)) in
  do b <- add_id (gc_id c) builder_zero root;
  do es <- g_children c g root;
  do b <- remove_all c b es;
  do s <- ip_set (gc_id c) b;
  match snd (snd s) with
  | e :: _ => Err e
  | [] =>
      do f <- remove_free_prefix (gc_id c) (fst (snd s)) (id_w (gc_id c));
      match f with
      | None => Err ENoFreeId
      | Some (x, _) => do _ <- g_validate g x; Ok (uwrap (id_w (gc_id c)) (i_id x))
      end
  end.

(** tree16.go:79-92 [ClaimFree]. *)
Definition g_claim_free (c : gcfg) (g : gtree) (l : L) : res (gtree * entry) :=
  do v <- g_find_free c g;
  let x := MyId v (id_w (gc_id c)) in
  let e := new_entry x l in
  do g' <- g_set c g x e;
  Ok (g', e).

(** tree16.go:169-171, matchFunc: e1.Equal(e2).  On a nil e1 the method call panics; this is
    false here.  All callers have read the node's value through Get or GetByLabel,
    which panic first. *)
Definition match_entry (v1 v2 : val) : bool :=
  match v1, v2 with
  | Some e1, Some e2 => entry_equal lstr String.eqb e1 e2
  | _, _ => false
  end.
(** tree16.go:168-174 [del]. *)
Definition g_del (c : gcfg) (g : gtree) (x : id) (v : val) : res gtree :=
  do a <- tree_Delete zero (gc_id c) (g_tree g) x match_entry v; Ok (with_tree g (fst a)).

(** tree16.go:141-152 [ReleaseID]. *)
Definition g_release_id (c : gcfg) (g : gtree) (x : id) : res gtree :=
  do _ <- g_validate g x;
  match g_get g x with
  | Ok e => g_del c g x (Some e)
  | Err _ => Ok g
  | Panic => Panic
  end.

(** tree16.go:160-164, the loop of [ReleaseByLabel]. *)
Fixpoint del_all (c : gcfg) (g : gtree) (es : list val) : res gtree :=
  match es with
  | [] => Ok g
  | v :: es' =>
      do e <- non_nil v;
      do g' <- g_del c g (eid e) v;
      del_all c g' es'
  end.
(** tree16.go:154-166 [ReleaseByLabel]. *)
Definition g_release_by_label (c : gcfg) (g : gtree) (sel : L -> bool) : res gtree :=
  do es <- g_get_by_label g sel; del_all c g es.

(** The modifying calls (gtree.go:10-27), what they return, and sequences of them.  A call that
    returns an error has not changed the tree: every error is returned before the
    first set or del, and these two always return nil. *)
Inductive gop : Type :=
| GClaimID (x : id) (l : L)
| GUpdate (x : id) (l : L)
| GClaimFree (l : L)
| GClaimRange (s : string) (l : L)
| GReleaseID (x : id)
| GReleaseByLabel (sel : L -> bool).
Inductive gres : Type := GDone | GEntry (e : entry) | GErr (e : err).

Definition done_or_err (g : gtree) (r : res gtree) : res (gtree * gres) :=
  match r with
  | Ok g' => Ok (g', GDone)
  | Err e => Ok (g, GErr e)
  | Panic => Panic
  end.
Definition g_step (c : gcfg) (g : gtree) (o : gop) : res (gtree * gres) :=
  match o with
  | GClaimID x l => done_or_err g (g_claim_id c g x l)
  | GUpdate x l => done_or_err g (g_update c g x l)
  | GClaimFree l => match g_claim_free c g l with
                    | Ok (g', e) => Ok (g', GEntry e)
                    | Err e => Ok (g, GErr e)
                    | Panic => Panic
                    end
  | GClaimRange s l => done_or_err g (g_claim_range c g s l)
  | GReleaseID x => done_or_err g (g_release_id c g x)
  | GReleaseByLabel sel => done_or_err g (g_release_by_label c g sel)
  end.
Fixpoint g_run (c : gcfg) (g : gtree) (os : list gop) : res (gtree * list gres) :=
  match os with
  | [] => Ok (g, [])
  | o :: os' =>
      do a <- g_step c g o;
      do b <- g_run c (fst a) os';
      Ok (fst b, snd a :: snd b)
  end.
End GTree.
Arguments gtree : clear implicits.
Arguments gop : clear implicits.
Arguments gres : clear implicits.
