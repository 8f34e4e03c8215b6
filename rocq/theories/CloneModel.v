(** Model of Clone in memory: the arrays and maps of several trees at addresses,
    as far as needed to say which trees share them.  A call reads the array of
    nodes, the array of available indexes and the map of values of its tree, works
    as in TreeModel.v or GTreeModel.v, and leaves the result at the addresses of
    its tree; the nodes are at a new address if they had to be moved.  Values are
    copied as they are (tree.go:65: not deep copied); the entries that tree16,
    tree32 and tree64 store are never written after they are made (entry.go). *)
From Verif Require Export GTreeModel.

Section Mem.
Context {T : Type}.

(** The memory.  The three kinds of objects have addresses of their own. *)
Record mem : Type := Mem {
  m_nodes : gmap N (gmap N node);
  m_avail : gmap N (list N);
  m_vals : gmap N (gmap N T);
  m_next : N }.

(** tree.go:41-48 [Tree]: the fields, with the addresses of the two arrays and of
    the map. *)
Record tobj : Type := TObj {
  o_leftfn : option (N -> bool);
  o_length : N;
  o_n : N;
  o_cap : N;
  o_gen : N;
  o_nodes : N;
  o_avail : N;
  o_vals : N }.

(** tree.go:41-48: the tree that is read through the fields; a panic if an address is wild. *)
Definition load (m : mem) (o : tobj) : res (tree T) :=
  match m_nodes m !! o_nodes o, m_avail m !! o_avail o, m_vals m !! o_vals o with
  | Some ns, Some av, Some vs => Ok (Tree (o_leftfn o) (o_length o) ns (o_n o) (o_cap o) av vs (o_gen o))
  | _, _, _ => Panic
  end.

(** tree.go:41-48: what a call leaves behind at the addresses of its tree.  The
    nodes move when [add] reserves room (tree.go:189-193) or the append of newNode
    finds none (tree_manual.go:34); the capacity of availableIndexes is not
    modelled, and it stays where it is. *)
Definition store (m : mem) (o : tobj) (s : tree T) : mem * tobj :=
  let a := if (t_gen s =? o_gen o) && (t_cap s =? o_cap o) then o_nodes o else m_next m in
  (Mem (<[a := t_nodes s]> (m_nodes m)) (<[o_avail o := t_avail s]> (m_avail m))
       (<[o_vals o := t_vals s]> (m_vals m)) (m_next m + 1),
   TObj (t_leftfn s) (t_length s) (t_n s) (t_cap s) (t_gen s) a (o_avail o) (o_vals o)).

(** tree.go:52-62 [NewTree]: two new arrays and a new map. *)
Definition alloc (m : mem) (s : tree T) : mem * tobj :=
  let a := m_next m in
  (Mem (<[a := t_nodes s]> (m_nodes m)) (<[a := t_avail s]> (m_avail m)) (<[a := t_vals s]> (m_vals m)) (a + 1),
   TObj (t_leftfn s) (t_length s) (t_n s) (t_cap s) (t_gen s) a a a).

(** tree.go:66-79 [Clone], statement by statement: make for nodes, availableIndexes
    and vals, then the contents are copied into them. *)
Definition o_clone (m : mem) (o : tobj) : res (mem * tobj) :=
  match m_nodes m !! o_nodes o, m_avail m !! o_avail o, m_vals m !! o_vals o with
  | Some ns, Some av, Some vs =>
      let a := m_next m in
      let ret := TObj None 0 (o_n o) (o_cap o) (o_gen o) a a a in
      Ok (Mem (<[o_nodes ret := ns]> (m_nodes m)) (<[o_avail ret := av]> (m_avail m))
              (<[o_vals ret := vs]> (m_vals m)) (a + 1), ret)
  | _, _, _ => Panic
  end.
End Mem.
Arguments mem : clear implicits.

(** Several trees and the calls on them (tree.go:66-505; tree16.go:34-250).  [A]: the
    other fields of a tree16, tree32 or tree64; [O] and [R]: the modifying calls and
    their results; [f]: what a call does to one tree. *)
Section World.
Context {T A O R : Type} (f : A * tree T -> O -> res (tree T * R)).

(** A call of the i-th tree, or its Clone.  A call that panics, and whose panic the
    caller recovers from, leaves its tree as [junk], which can be any tree. *)
Inductive mcmd : Type := MCall (i : nat) (o : O) (junk : tree T) | MClone (i : nat).
(** MNone: there is no such tree.  MWild: an address is not that of an object. *)
Inductive mout : Type := MRes (r : res R) | MCloned | MNone | MWild.

Definition world : Type := mem T * list (A * tobj).
Definition m_step (w : world) (k : mcmd) : world * mout :=
  match k with
  | MCall i o junk =>
      match snd w !! i with
      | None => (w, MNone)
      | Some (a, ob) =>
          match load (fst w) ob with
          | Ok s =>
              let '(s', r) := match f (a, s) o with
                              | Ok (s', r) => (s', Ok r)
                              | Err e => (s, Err e)
                              | Panic => (junk, Panic)
                              end in
              let '(m', ob') := store (fst w) ob s' in
              ((m', <[i := (a, ob')]> (snd w)), MRes r)
          | _ => (w, MWild)
          end
      end
  | MClone i =>
      match snd w !! i with
      | None => (w, MNone)
      | Some (a, ob) =>
          match o_clone (fst w) ob with
          | Ok (m', ob') => ((m', snd w ++ [(a, ob')]), MCloned)
          | _ => (w, MWild)
          end
      end
  end.
Fixpoint m_run (w : world) (ks : list mcmd) : world * list mout :=
  match ks with
  | [] => (w, [])
  | k :: ks' =>
      let '(w1, r) := m_step w k in
      let '(w2, rs) := m_run w1 ks' in (w2, r :: rs)
  end.

(** One new tree in an empty memory (tree.go:52-62; tree16.go:15-25). *)
Definition m_start (a : A) (s : tree T) : world :=
  let '(m, o) := alloc (Mem ∅ ∅ ∅ 0) s in (m, [(a, o)]).
End World.

(** The calls of pkg/tree that modify a tree (tree.go:170-505). *)
Definition tree_calls {T} (zero : T) (c : idcfg) (x : unit * tree T) (o : top T) : res (tree T * tres) :=
  t_step zero c (snd x) o.

(** The calls of tree16, tree32 and tree64 that modify a tree (tree16.go:43-250);
    the fields size and length are copied by Clone (tree16.go:34-41) and never
    written. *)
Definition gtree_calls {L} (lstr : L -> string) (c : gcfg) (x : (N * N) * tree (option (tentry L))) (o : gop L)
    : res (tree (option (tentry L)) * gres L) :=
  match g_step lstr c (GTree (snd x) (fst (fst x)) (snd (fst x))) o with
  | Ok (g, r) => Ok (g_tree g, r)
  | Err e => Err e
  | Panic => Panic
  end.
