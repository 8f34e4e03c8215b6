(** Model of pkg/tree: tree.go, node.go, tree_manual.go (the generic radix tree).
    The ids are those of the packages id16, id32, id64, of which [c] is one.
    Go's int and uint are 64 bits wide; slice lengths and capacities are assumed
    not to overflow them. *)
From Verif Require Export IdModel.

(** node.go:3-9 [treeNode]. *)
Record node : Type := Node { n_left : N; n_right : N; n_id : N; n_len : N; n_cnt : N }.

Section Tree.
Context {T : Type} (zero : T).

(** tree.go:41-48 [Tree] without the name, which only occurs in a panic message.
    The slice nodes is a map with the keys 0 .. t_n - 1, t_n = len(nodes),
    t_cap = cap(nodes); availableIndexes is kept with its last element first (its
    capacity is not modelled: no pointer into it is ever taken).  [t_gen] is a
    ghost: it counts the appends that had to move nodes to a new array, after
    which pointers into the old array are stale. *)
Record tree : Type := Tree {
  t_leftfn : option (N -> bool);
  t_length : N;
  t_nodes : gmap N node;
  t_n : N;
  t_cap : N;
  t_avail : list N;
  t_vals : gmap N T;
  t_gen : N }.

(** Assignments to the fields of tree.go:41-48. *)
Definition with_nodes (s : tree) (ns : gmap N node) : tree :=
  Tree (t_leftfn s) (t_length s) ns (t_n s) (t_cap s) (t_avail s) (t_vals s) (t_gen s).
Definition with_avail (s : tree) (av : list N) : tree :=
  Tree (t_leftfn s) (t_length s) (t_nodes s) (t_n s) (t_cap s) av (t_vals s) (t_gen s).
Definition with_vals (s : tree) (vs : gmap N T) : tree :=
  Tree (t_leftfn s) (t_length s) (t_nodes s) (t_n s) (t_cap s) (t_avail s) vs (t_gen s).

(** tree.go:52-62 [NewTree]; the two nodes are zero values. *)
Definition node_zero : node := Node 0 0 0 0 0.
Definition new_tree (fn : N -> bool) (len : N) : tree :=
  Tree (Some fn) len (<[1 := node_zero]> (<[0 := node_zero]> ∅)) 2 2 [] ∅ 0.

(** tree.go:66-79 [Clone]: isLeftBitSetFn is nil and length is 0 in the copy. *)
Definition clone (s : tree) : tree :=
  Tree None 0 (t_nodes s) (t_n s) (t_cap s) (t_avail s) (t_vals s) (t_gen s).

(** r.nodes[i] (tree.go:87, 195, 228), a panic outside the slice; and a field update through a pointer
    to it. *)
Definition get_node (s : tree) (i : N) : res node :=
  match t_nodes s !! i with Some nd => Ok nd | None => Panic end.
Definition upd_node (s : tree) (i : N) (f : node -> node) : res tree :=
  do nd <- get_node s i; Ok (with_nodes s (<[i := f nd]> (t_nodes s))).
Definition set_left (l : N) (n : node) : node := Node l (n_right n) (n_id n) (n_len n) (n_cnt n).
Definition set_right (r : N) (n : node) : node := Node (n_left n) r (n_id n) (n_len n) (n_cnt n).
Definition set_cnt (k : N) (n : node) : node := Node (n_left n) (n_right n) (n_id n) (n_len n) k.
Definition set_id (x l : N) (n : node) : node := Node (n_left n) (n_right n) x l (n_cnt n).

(** node.go:12-25 [MatchCount]. *)
Definition match_count (c : idcfg) (n : node) (x : id) : N :=
  let length := if n_len n <? i_len x then n_len n else i_len x in
  let m := matches c x (n_id n) in
  if length <? m then length else m.

(** node.go:28-31 [ShiftLength]; Id is a uint64 in every tree. *)
Definition shift_length (s : N) (n : node) : node :=
  set_id (ushl 64 (n_id n) s) (usub 8 (n_len n) s) n.

(** tree_manual.go:7-22, the tables _leftMasks16/32/64; entry [l] of table [w]. *)
Fixpoint left_mask (w : N) (l : nat) : N :=
  match l with
  | O => 0
  | S k => N.lor (left_mask w k) (N.shiftl 1 (w - N.of_nat (S k)))
  end.
(** tree_manual.go:75-85 [MergeID64], [MergeID32], [MergeID16]; an index beyond
    the table panics. *)
Definition merge_id (w : N) (l ll r rl : N) : res (N * N) :=
  if (w <? ll) || (w <? rl) then Panic
  else Ok (N.lor (N.land l (left_mask w (N.to_nat ll)))
                 (N.shiftr (N.land r (left_mask w (N.to_nat rl))) ll),
           uadd 8 ll rl).
(** node.go:34-48 [MergeFromNodes]: the new id and length. *)
Definition merge_from_nodes (idlen : N) (a b : node) : res (N * N) :=
  if (idlen =? 16) || (idlen =? 32) || (idlen =? 64) then
    merge_id idlen (uwrap idlen (n_id a)) (n_len a) (uwrap idlen (n_id b)) (n_len b)
  else Panic.

(** tree_manual.go:25-36 [newNode]. *)
Definition new_node (s : tree) (x : id) (len : N) : res (tree * N) :=
  let nd := Node 0 0 (i_id x) len 0 in
  match t_avail s with
  | index :: av =>
      do s' <- upd_node (with_avail s av) index (fun _ => nd);
      Ok (s', index)
  | [] =>
      (* append: when the array is full it is moved; the new capacity is at
         least one more *)
      let full := t_cap s <=? t_n s in
      Ok (Tree (t_leftfn s) (t_length s) (<[t_n s := nd]> (t_nodes s)) (t_n s + 1)
               (if full then t_n s + 1 else t_cap s) [] (t_vals s)
               (if full then t_gen s + 1 else t_gen s),
          t_n s)
  end.

(** uint64(nodeIndex) << uint64(r.length) (tree.go:86, 106, 107, 126), and
    r.vals[key]. *)
Definition key (s : tree) (i : N) : N := ushl 64 i (t_length s).
Definition slot (s : tree) (i k : N) : N := uadd 64 (key s i) k.
Definition val_at (s : tree) (k : N) : T := default zero (t_vals s !! k).

(** tree.go:88-98, the search of [addVal]: the first k in [k, k+n) whose value
    matches. *)
Fixpoint find_match (s : tree) (m : T -> T -> bool) (v : T) (i k : N) (n : nat) : option N :=
  match n with
  | O => None
  | S n' => if m (val_at s (slot s i k)) v then Some k else find_match s m v i (k + 1) n'
  end.

(** tree.go:85-102 [addVal]. *)
Definition add_val (s : tree) (v : T) (i : N) (mf : option (T -> T -> bool)) (uf : option (T -> T))
    : res (tree * bool) :=
  do nd <- get_node s i;
  match (match mf with None => None | Some m => find_match s m v i 0 (N.to_nat (n_cnt nd)) end) with
  | Some k =>
      Ok (match uf with
          | Some u => with_vals s (<[slot s i k := u (val_at s (slot s i k))]> (t_vals s))
          | None => s
          end, false)
  | None =>
      let s1 := with_vals s (<[slot s i (n_cnt nd) := v]> (t_vals s)) in
      do s2 <- upd_node s1 i (set_cnt (n_cnt nd + 1));
      Ok (s2, true)
  end.

(** tree.go:108-111, the loop of [moveTags]. *)
Fixpoint move_loop (s : tree) (a b k : N) (n : nat) : tree :=
  match n with
  | O => s
  | S n' =>
      move_loop (with_vals s (delete (slot s a k) (<[slot s b k := val_at s (slot s a k)]> (t_vals s))))
                a b (k + 1) n'
  end.
(** tree.go:104-114 [moveTags]. *)
Definition move_tags (s : tree) (a b : N) : res tree :=
  do na <- get_node s a;
  let s1 := move_loop s a b 0 (N.to_nat (n_cnt na)) in
  do s2 <- upd_node s1 b (fun nb => set_cnt (n_cnt nb + n_cnt na) nb);
  upd_node s2 a (set_cnt 0).

(** tree.go:118-134 [valsForNode]; every caller passes a nil filter, and the
    result is what is appended. *)
Definition vals_for_node (s : tree) (i : N) : res (list T) :=
  if i =? 0 then Ok []
  else
    do nd <- get_node s i;
    Ok ((fun k => val_at s (slot s i (N.of_nat k))) <$> seq 0 (N.to_nat (n_cnt nd))).

(** tree.go:148-150: delete n values from number k on. *)
Fixpoint delete_slots (s : tree) (i k : N) (n : nat) : tree :=
  match n with
  | O => s
  | S n' => delete_slots (with_vals s (delete (slot s i k) (t_vals s))) i (k + 1) n'
  end.
(** tree.go:156-164: put the values back that do not match. *)
Fixpoint put_back (s : tree) (i : N) (mf : T -> T -> bool) (v : T) (buf : list T) (del keep : N)
    : res (tree * (N * N)) :=
  match buf with
  | [] => Ok (s, (del, keep))
  | tag :: buf' =>
      if mf tag v then put_back s i mf v buf' (del + 1) keep
      else
        do x <- add_val s tag i (Some mf) None;
        put_back (fst x) i mf v buf' del (keep + 1)
  end.
(** tree.go:138-166 [deleteVal]; the buffer only saves allocations. *)
Definition delete_val (s : tree) (i : N) (v : T) (mf : T -> T -> bool) : res (tree * (N * N)) :=
  do buf <- vals_for_node s i;
  match buf with
  | [] => Ok (s, (0, 0))
  | _ =>
      do nd <- get_node s i;
      let s1 := delete_slots s i 0 (N.to_nat (n_cnt nd)) in
      do s2 <- upd_node s1 i (set_cnt 0);
      put_back s2 i mf v buf 0 0
  end.

(** tree.go:189-193, the capacity check of [add]. *)
Definition reserve (s : tree) : tree :=
  if N.of_nat (length (t_avail s)) + t_cap s <? t_n s + 10 then
    Tree (t_leftfn s) (t_length s) (t_nodes s) (t_n s) ((t_cap s + 1) * 2) (t_avail s) (t_vals s) (t_gen s)
  else s.

(** The four lines tree.go:208-211 (and 216-219, 284-287, 299-302): a new node
    with the value, hung under node [p] on side [right]. *)
Definition add_leaf (s : tree) (p : N) (right : bool) (x : id) (v : T)
    (mf : option (T -> T -> bool)) (uf : option (T -> T)) : res (tree * (bool * N)) :=
  do a <- new_node s x (i_len x);
  let i := snd a in
  do b <- add_val (fst a) v i mf uf;
  do s1 <- upd_node (fst b) p (if right then set_right i else set_left i);
  do nd <- get_node s1 i;
  Ok (s1, (snd b, n_cnt nd)).

(** r.isLeftBitSetFn(node.Id) (tree.go:256, 323): calling a nil function panics. *)
Definition left_bit (s : tree) (v : N) : res bool :=
  match t_leftfn s with Some f => Ok (f v) | None => Panic end.

(** tree.go:263-270 (and 332-339): node [p] points to [j] instead of [i]. *)
Definition replace_child (s : tree) (p i j : N) : res tree :=
  do pn <- get_node s p;
  if n_left pn =? i then upd_node s p (set_left j)
  else if n_right pn =? i then upd_node s p (set_right j)
  else Panic.

(** tree.go:224-342, the loop of [add].  [p], [i] are the indexes behind the
    pointers parent and node.  Every turn shortens the id; out of fuel is Panic. *)
Fixpoint add_loop (c : idcfg) (fuel : nat) (s : tree) (p i : N) (x : id) (v : T)
    (mf : option (T -> T -> bool)) (uf : option (T -> T)) : res (tree * (bool * N)) :=
  match fuel with
  | O => Panic
  | S fuel' =>
      if i =? 0 then Panic
      else
        do nd <- get_node s i;
        if n_len nd =? 0 then Panic
        else
          let mc := match_count c nd x in
          if mc =? 0 then Panic
          else if mc =? i_len x then
            if mc =? n_len nd then
              do a <- add_val s v i mf uf;
              do nd' <- get_node (fst a) i;
              Ok (fst a, (snd a, n_cnt nd'))
            else
              (* the id is a proper prefix of the node: a new parent *)
              do a <- new_node s x (i_len x);
              let j := snd a in
              do b <- add_val (fst a) v j mf uf;
              do s1 <- upd_node (fst b) i (shift_length mc);
              do nd' <- get_node s1 i;
              do lb <- left_bit s1 (n_id nd');
              do s2 <- upd_node s1 j (if lb then set_right i else set_left i);
              do s3 <- replace_child s2 p i j;
              do ndj <- get_node s3 j;
              Ok (s3, (snd b, n_cnt ndj))
          else if mc =? n_len nd then
            (* the node is a proper prefix of the id: go on below it *)
            let x' := shift_left c x mc in
            if negb (is_left_bit_set c x') then
              if n_left nd =? 0 then add_leaf s i false x' v mf uf
              else add_loop c fuel' s i (n_left nd) x' v mf uf
            else
              if n_right nd =? 0 then add_leaf s i true x' v mf uf
              else add_loop c fuel' s i (n_right nd) x' v mf uf
          else
            (* split the node *)
            do a <- new_node s x mc;
            let j := snd a in
            let x' := shift_left c x mc in
            do a' <- new_node (fst a) x' (i_len x');
            let k := snd a' in
            do b <- add_val (fst a') v k mf uf;
            do s1 <- upd_node (fst b) i (shift_length mc);
            do nd' <- get_node s1 i;
            do lb <- left_bit s1 (n_id nd');
            do s2 <- upd_node s1 j
                       (fun n => if lb then set_left k (set_right i n) else set_right k (set_left i n));
            do s3 <- replace_child s2 p i j;
            do ndk <- get_node s3 k;
            Ok (s3, (snd b, n_cnt ndk))
  end.

(** tree.go:186-343 [add]. *)
Definition tree_add (c : idcfg) (s : tree) (x : id) (v : T)
    (mf : option (T -> T -> bool)) (uf : option (T -> T)) : res (tree * (bool * N)) :=
  let s := reserve s in
  do root <- get_node s 1;
  if i_len x =? 0 then
    do a <- add_val s v 1 mf uf;
    do nd <- get_node (fst a) 1;
    Ok (fst a, (snd a, n_cnt nd))
  else
    let fuel := S (N.to_nat (i_len x)) in
    if negb (is_left_bit_set c x) then
      if n_left root =? 0 then add_leaf s 1 false x v mf uf
      else add_loop c fuel s 1 (n_left root) x v mf uf
    else
      if n_right root =? 0 then add_leaf s 1 true x v mf uf
      else add_loop c fuel s 1 (n_right root) x v mf uf.

(** tree.go:170-177 [Set]; 182-184 [Add]. *)
Definition tree_Set (c : idcfg) (s : tree) (x : id) (v : T) : res (tree * (bool * N)) :=
  tree_add c s x v (Some (fun _ _ => true)) (Some (fun _ => v)).
Definition tree_Add (c : idcfg) (s : tree) (x : id) (v : T) (mf : option (T -> T -> bool))
    : res (tree * (bool * N)) :=
  tree_add c s x v mf None.

(** tree.go:377-405, the search of [DeleteWithBuffer]: target and its parent. *)
Fixpoint del_find (c : idcfg) (fuel : nat) (s : tree) (p i : N) (x : id) : res (option (N * N)) :=
  match fuel with
  | O => Panic
  | S fuel' =>
      if i =? 0 then Ok None
      else
        do nd <- get_node s i;
        let mc := match_count c nd x in
        if mc <? n_len nd then Ok None
        else if mc =? i_len x then Ok (Some (i, p))
        else
          let x' := shift_left c x mc in
          del_find c fuel' s i (if negb (is_left_bit_set c x') then n_left nd else n_right nd) x'
  end.

(** tree.go:438-446 (and 450-458): the only child [ch] of the target [t] takes its
    place under [p]. *)
Definition lift_child (s : tree) (t p ch : N) : res tree :=
  do pn <- get_node s p;
  do s1 <- upd_node s p (if n_left pn =? t then set_left ch else set_right ch);
  do tn <- get_node s1 t;
  do cn <- get_node s1 ch;
  do m <- merge_from_nodes (t_length s1) tn cn;
  upd_node s1 ch (set_id (fst m) (snd m)).

(** tree.go:467-478 (and 485-496): the sibling [sb] is merged into the parent [p];
    its index becomes available. *)
Definition merge_sibling (s : tree) (p sb : N) : res tree :=
  do pn <- get_node s p;
  do sn <- get_node s sb;
  do m <- merge_from_nodes (t_length s) pn sn;
  do s1 <- upd_node s p (set_id (fst m) (snd m));
  do s2 <- move_tags s1 sb p;
  do sn' <- get_node s2 sb;
  do s3 <- upd_node s2 p (fun n => set_right (n_right sn') (set_left (n_left sn') n));
  Ok (with_avail s3 (sb :: t_avail s3)).

(** tree.go:424-505 [deleteNode]; its result value is not used by any caller. *)
Definition delete_node (s : tree) (t p : N) : res tree :=
  if t =? 1 then Ok s
  else
    do tn <- get_node s t;
    if negb (n_left tn =? 0) && negb (n_right tn =? 0) then Ok s
    else
      do s1 <-
        (if negb (n_left tn =? 0) then lift_child s t p (n_left tn)
         else if negb (n_right tn =? 0) then lift_child s t p (n_right tn)
         else
           do pn <- get_node s p;
           if n_left pn =? t then
             do s1 <- upd_node s p (set_left 0);
             if (1 <? p) && (n_cnt pn =? 0) && negb (n_right pn =? 0) then merge_sibling s1 p (n_right pn)
             else Ok s1
           else
             do s1 <- upd_node s p (set_right 0);
             if (1 <? p) && (n_cnt pn =? 0) && negb (n_left pn =? 0) then merge_sibling s1 p (n_left pn)
             else Ok s1);
      do s2 <- upd_node s1 t (fun n => set_right 0 (set_left 0 n));
      Ok (with_avail s2 (t :: t_avail s2)).

(** tree.go:347-421 [Delete], [DeleteWithBuffer]. *)
Definition tree_Delete (c : idcfg) (s : tree) (x : id) (mf : T -> T -> bool) (v : T) : res (tree * N) :=
  do root <- get_node s 1;
  do target <-
    (if i_len x =? 0 then Ok (Some (1, 0))
     else del_find c (S (N.to_nat (i_len x))) s 1
            (if negb (is_left_bit_set c x) then n_left root else n_right root) x);
  match target with
  | None => Ok (s, 0)
  | Some (t, p) =>
      do tn <- get_node s t;
      if n_cnt tn =? 0 then Ok (s, 0)
      else
        do a <- delete_val s t v mf;
        let '(s1, (del, keep)) := a in
        if 0 <? keep then Ok (s1, del)
        else do s2 <- delete_node s1 t p; Ok (s2, del)
  end.

(** tree.go:22-29 [treeIteratorNext]; 508-514 [TreeIterator] (length is not
    read); nodeHistory is kept with its last element first. *)
Inductive inext : Set := NSelf | NLeft | NRight | NUp.
Record iter : Type := Iter { it_idx : N; it_hist : list N; it_next : inext }.

(** tree.go:518-526 [Iterate]. *)
Definition iterate : iter := Iter 1 [] NSelf.

(** tree.go:532-575: one turn of the loop of [Next]; Some b is [return b]. *)
Definition next_body (s : tree) (it : iter) : res (iter * option bool) :=
  do node <- get_node s (it_idx it);
  let self := match it_next it with NSelf => true | _ => false end in
  if self && negb (n_cnt node =? 0) then Ok (Iter (it_idx it) (it_hist it) NLeft, Some true)
  else
    let it1 := if self then Iter (it_idx it) (it_hist it) NLeft else it in
    let it2 := match it_next it1 with
               | NLeft => if negb (n_left node =? 0)
                          then Iter (n_left node) (it_idx it1 :: it_hist it1) NSelf
                          else Iter (it_idx it1) (it_hist it1) NRight
               | _ => it1
               end in
    let it3 := match it_next it2 with
               | NRight => if negb (n_right node =? 0)
                           then Iter (n_right node) (it_idx it2 :: it_hist it2) NSelf
                           else Iter (it_idx it2) (it_hist it2) NUp
               | _ => it2
               end in
    match it_next it3 with
    | NUp =>
        match it_hist it3 with
        | [] => Ok (it3, Some false)
        | prev :: h =>
            do pn <- get_node s prev;
            if n_left pn =? it_idx it3 then Ok (Iter prev h NRight, None)
            else if n_right pn =? it_idx it3 then Ok (Iter prev h NUp, None)
            else Panic
        end
    | _ => Ok (it3, None)
    end.

(** tree.go:530-577 [Next]; out of fuel is Panic. *)
Fixpoint next_loop (fuel : nat) (s : tree) (it : iter) : res (iter * bool) :=
  match fuel with
  | O => Panic
  | S fuel' =>
      do x <- next_body s it;
      match snd x with
      | Some b => Ok (fst x, b)
      | None => next_loop fuel' s (fst x)
      end
  end.
(** tree.go:530-577.  A turn moves to a child or back to a parent; the fuel allows for every node
    twice. *)
Definition iter_next (s : tree) (it : iter) : res (iter * bool) :=
  next_loop (S (S (2 * N.to_nat (t_n s)))) s it.

(** tree.go:581-589 [Vals], [ValsWithBuffer]. *)
Definition iter_vals (s : tree) (it : iter) : res (list T) := vals_for_node s (it_idx it).

(** [for iter.Next() { ... iter.Vals() ... }] (tree.go:530-589): the values of every stop, then the
    final state of the iterator. *)
Fixpoint iter_loop (fuel : nat) (s : tree) (it : iter) : res (list (list T) * iter) :=
  match fuel with
  | O => Panic
  | S fuel' =>
      do x <- iter_next s it;
      if snd x then
        do vs <- iter_vals s (fst x);
        do rest <- iter_loop fuel' s (fst x);
        Ok (vs :: fst rest, snd rest)
      else Ok ([], fst x)
  end.
Definition iter_all (s : tree) : res (list (list T)) :=
  do x <- iter_loop (S (N.to_nat (t_n s))) s iterate; Ok (fst x).

(** The modifying calls (tree.go:170, 182, 347), their results, and sequences of
    them. *)
Inductive top : Type :=
| TSet (x : id) (v : T)
| TAdd (x : id) (v : T) (mf : option (T -> T -> bool))
| TDelete (x : id) (mf : T -> T -> bool) (v : T).
Inductive tres : Set := RAdded (increased : bool) (count : N) | RDeleted (count : N).

Definition t_step (c : idcfg) (s : tree) (o : top) : res (tree * tres) :=
  match o with
  | TSet x v => do a <- tree_Set c s x v; Ok (fst a, RAdded (fst (snd a)) (snd (snd a)))
  | TAdd x v mf => do a <- tree_Add c s x v mf; Ok (fst a, RAdded (fst (snd a)) (snd (snd a)))
  | TDelete x mf v => do a <- tree_Delete c s x mf v; Ok (fst a, RDeleted (snd a))
  end.
Fixpoint t_run (c : idcfg) (s : tree) (os : list top) : res (tree * list tres) :=
  match os with
  | [] => Ok (s, [])
  | o :: os' =>
      do a <- t_step c s o;
      do b <- t_run c (fst a) os';
      Ok (fst b, snd a :: snd b)
  end.
(** treeN.go:21: NewTree with the package's IsLeftBitSet and IDBitSize. *)
Definition tree_zero (c : idcfg) : tree := new_tree (is_left_bit_set_fn c) (id_w c).
End Tree.
Arguments tree : clear implicits.
Arguments top : clear implicits.
