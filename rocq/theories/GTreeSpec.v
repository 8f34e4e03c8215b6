(** Vocabulary for the statements about the packages tree16, tree32, tree64. *)
From Verif Require Export GTreeModel IdSpec IdSetSpec TreeSpec.

Definition g_packages : list gcfg := [cfg_tree16; cfg_tree32; cfg_tree64].
(** The two packages without the constants that are wrong in id64 and tree64. *)
Definition g_packages_16_32 : list gcfg := [cfg_tree16; cfg_tree32].
Notation gw c := (id_w (gc_id c)).

(** An id of the width, no longer than it. *)
Definition gid_ok (c : gcfg) (x : id) : Prop := i_id x < 2 ^ gw c /\ i_len x <= gw c.

Section Spec.
Context {L : Type}.

(** The record an observer keeps of the calls and their results: for every
    prefix the entry last stored there and not released since. *)
Notation record := (gmap (list bool) (tentry L)).

Definition claim_all (c : gcfg) (m : record) (ids : list id) (l : L) : record :=
  fold_left (fun m x => <[prefix (gw c) x := TEntry (i_id x) (i_len x) l]> m) ids m.
(** The prefixes a range string stands for (see C24, C26). *)
Definition range_prefixes (c : gcfg) (s : string) : list id :=
  match parse_range (gc_id c) s with
  | Ok r => match range_ids (gc_id c) r with Ok ids => ids | _ => [] end
  | _ => []
  end.

Definition same_id (e : tentry L) (x : id) : bool := (te_id e =? i_id x) && (te_len e =? i_len x).
Definition lookup_id (c : gcfg) (m : record) (x : id) : option (tentry L) :=
  match m !! prefix (gw c) x with
  | Some e => if same_id e x then Some e else None
  | None => None
  end.

Definition after (c : gcfg) (m : record) (o : gop L) (r : gres L) : record :=
  match o, r with
  | GClaimID x l, GDone => <[prefix (gw c) x := TEntry (i_id x) (i_len x) l]> m
  | GUpdate x l, GDone => <[prefix (gw c) x := TEntry (i_id x) (i_len x) l]> m
  | GClaimFree _, GEntry e => <[prefix (gw c) (eid e) := e]> m
  | GClaimRange s l, GDone => claim_all c m (range_prefixes c s) l
  | GReleaseID x, GDone => match lookup_id c m x with Some _ => delete (prefix (gw c) x) m | None => m end
  | GReleaseByLabel sel, GDone => filter (fun qe => sel (te_labels qe.2) = false) m
  | _, _ => m
  end.

(** Arguments a caller can form. *)
Definition gop_ok (c : gcfg) (o : gop L) : Prop :=
  match o with
  | GClaimID x _ | GUpdate x _ | GReleaseID x => gid_ok c x
  | _ => True
  end.

(** The 64-bit keys of a tree32 have room for 2^31 - 2 prefixes; those of a
    tree16 always suffice. *)
Definition growth (c : gcfg) (o : gop L) : nat :=
  match o with GClaimRange s _ => length (range_prefixes c s) | _ => 1 end.
Definition g_room (c : gcfg) (m : record) (o : gop L) : Prop :=
  gw c = 16 \/ N.of_nat (size m + growth c o) + 2 <= 2 ^ 31.

(** The tree [g] after a history of calls, all of the kind [P], on New(name,n);
    [m] is the record of it.  The strings of the labels may change between calls
    (they are maps the callers can still write to). *)
Inductive g_hist (P : gop L -> Prop) (c : gcfg) (n : N) : record -> gtree L -> Prop :=
| hist_new g : g_new c n = Ok g -> g_hist P c n ∅ g
| hist_step lstr m g o g' r : g_hist P c n m g -> P o -> gop_ok c o -> g_room c m o ->
    g_step lstr c g o = Ok (g', r) -> g_hist P c n (after c m o r) g'.
(** The record of a list of calls and their results, and a bound of its size. *)
Fixpoint after_all (c : gcfg) (m : record) (os : list (gop L)) (rs : list (gres L)) : record :=
  match os, rs with
  | o :: os', r :: rs' => after_all c (after c m o r) os' rs'
  | _, _ => m
  end.
Definition growth_all (c : gcfg) (os : list (gop L)) : nat := list_sum (growth c <$> os).
Definition any_op (o : gop L) : Prop := True.
Definition no_range (o : gop L) : Prop := match o with GClaimRange _ _ => False | _ => True end.

(** The prefixes a call with result r stores at or removes. *)
Definition touches (c : gcfg) (m : record) (o : gop L) (r : gres L) (q : list bool) : Prop :=
  match o, r with
  | GClaimID x _, GDone | GUpdate x _, GDone | GReleaseID x, GDone => q = prefix (gw c) x
  | GClaimFree _, GEntry e => q = prefix (gw c) (eid e)
  | GClaimRange s _, GDone => exists x, x ∈ range_prefixes c s /\ q = prefix (gw c) x
  | GReleaseByLabel sel, GDone => exists e, m !! q = Some e /\ sel (te_labels e) = true
  | _, _ => False
  end.

(** The entries in the order of the iterator. *)
Definition before_entry (c : gcfg) (a b : tentry L) : Prop :=
  pbefore (prefix (gw c) (eid a)) (prefix (gw c) (eid b)).

(** The value v is covered by a stored entry. *)
Definition covered (c : gcfg) (m : record) (v : N) : Prop :=
  exists q e, m !! q = Some e /\ covers (gw c) (eid e) v.

(** findFree: the values of its root id, and those of them that no entry more
    specific than the root id covers. *)
Definition root_id (c : gcfg) (n : N) : id := MyId 0 (gc_root c n).
Definition open_id (c : gcfg) (n : N) (m : record) (v : N) : Prop :=
  v < 2 ^ gw c /\ covers (gw c) (root_id c n) v /\
  ~ exists q e, m !! q = Some e /\ gc_root c n < te_len e /\ covers (gw c) (eid e) v.

(** The value findFree picks: the first of a smallest maximal block of open
    values, and of these the lowest. *)
Definition chosen (c : gcfg) (n : N) (m : record) (v : N) : Prop :=
  exists b, i_id b = v /\ canonical (gw c) b /\ (forall u, covers (gw c) b u -> open_id c n m u) /\
    maximal_in (gw c) (open_id c n m) b /\
    forall q, canonical (gw c) q -> (forall u, covers (gw c) q u -> open_id c n m u) ->
      maximal_in (gw c) (open_id c n m) q ->
      i_len q < i_len b \/ (i_len q = i_len b /\ i_id b <= i_id q).

(** What a call returns. *)
Definition returns (c : gcfg) (n : N) (m : record) (o : gop L) (r : gres L) : Prop :=
  match o with
  | GClaimID x _ | GUpdate x _ | GReleaseID x => r = if 2 ^ n <=? i_id x then GErr EMaxId else GDone
  | GReleaseByLabel _ => r = GDone
  | GClaimRange s _ => match parse_range (gc_id c) s with Ok _ => r = GDone | Err e => r = GErr e | Panic => False end
  | GClaimFree l =>
      (exists v, chosen c n m v /\ r = if 2 ^ n <=? v then GErr EMaxId else GEntry (TEntry v (gw c) l)) \/
      ((forall v, ~ open_id c n m v) /\ r = GErr ENoFreeId)
  end.
End Spec.
Notation record L := (gmap (list bool) (tentry L)).
