(** Vocabulary for the statements about concurrent executions of tree16, tree32
    and tree64. *)
From Verif Require Export ConcSpec GTreeConcModel GTreeSpec.

Section Spec.
Context {L : Type} (lstr : L -> string).

(** The calls one at a time, with the functions of GTreeModel.v. *)
Definition unit_out (g : gtree L) (r : res (gtree L)) : gtree L * gcout L :=
  match r with
  | Ok g' => (g', GRUnit (Ok tt))
  | Err e => (g, GRUnit (Err e))
  | Panic => (g, GRUnit Panic)
  end.
Definition g_seq (c : gcfg) (g : gtree L) (o : gcall L) : gtree L * gcout L :=
  match o with
  | CGet x => (g, GREntry (g_get g x))
  | CUpdate x l => unit_out g (g_update c g x l)
  | CClaimID x l => unit_out g (g_claim_id c g x l)
  | CClaimFree l =>
      match g_claim_free c g l with
      | Ok (g', e) => (g', GREntry (Ok e))
      | Err e => (g, GREntry (Err e))
      | Panic => (g, GREntry Panic)
      end
  | CClaimRange s l => unit_out g (g_claim_range c g s l)
  | CReleaseID x => unit_out g (g_release_id lstr c g x)
  | CReleaseByLabel sel => unit_out g (g_release_by_label lstr c g sel)
  | CChildren x => (g, GRVals (g_children c g x))
  | CParents x => (g, GRVals (g_parents c g x))
  | CGetByLabel sel => (g, GRVals (g_get_by_label g sel))
  | CGetAll => (g, GRVals (g_get_all g))
  | CSize => (g, GRSize (g_Size g))
  end.

(** The calls whose whole work on the tree is one locked region. *)
Definition g_atomic (o : gcall L) : bool :=
  match o with CGet _ | CUpdate _ _ | CClaimID _ _ | CChildren _ | CParents _ => true | _ => false end.
(** The calls that access the tree only under the lock. *)
Definition g_locked (o : gcall L) : bool :=
  match o with
  | CGet _ | CUpdate _ _ | CClaimID _ _ | CClaimFree _ | CReleaseID _ | CChildren _ | CParents _ => true
  | _ => false
  end.
(** ClaimRange, which changes the tree without the lock. *)
Definition g_ranges (o : gcall L) : bool := match o with CClaimRange _ _ => true | _ => false end.
Definition g_releases (o : gcall L) : bool :=
  match o with CReleaseID _ | CReleaseByLabel _ => true | _ => false end.
(** The calls that may change the tree, and those that lock for reading twice. *)
Definition g_writes (o : gcall L) : bool :=
  match o with
  | CUpdate _ _ | CClaimID _ _ | CClaimFree _ | CClaimRange _ _ | CReleaseID _ | CReleaseByLabel _ => true
  | _ => false
  end.
(** The calls that may lock for writing. *)
Definition g_write_locks (o : gcall L) : bool :=
  match o with
  | CUpdate _ _ | CClaimID _ _ | CClaimFree _ | CReleaseID _ | CReleaseByLabel _ => true
  | _ => false
  end.
Definition g_nests (o : gcall L) : bool :=
  match o with CGet _ | CClaimFree _ | CReleaseID _ | CChildren _ | CParents _ => true | _ => false end.
(** The call has panicked. *)
Definition g_crashed (r : gcout L) : Prop :=
  match r with GREntry Panic | GRVals Panic | GRUnit Panic | GRSize Panic => True | _ => False end.
(** Arguments a caller can form. *)
Definition g_args_ok (c : gcfg) (o : gcall L) : Prop :=
  match o with CUpdate x _ | CClaimID x _ => gid_ok c x | _ => True end.

Definition g_ids_ok (c : gcfg) (o : gcall L) : Prop :=
  match o with
  | CGet x | CUpdate x _ | CClaimID x _ | CReleaseID x | CChildren x | CParents x => gid_ok c x
  | _ => True
  end.

(** A ClaimFree that has returned an entry, as the ClaimID of this entry. *)
Definition g_as_claim (o : gcall L) (x : gcout L) : gcall L * gcout L :=
  match o, x with
  | CClaimFree l, GREntry (Ok e) => (CClaimID (eid e) l, GRUnit (Ok tt))
  | _, _ => (o, x)
  end.

(** Calls that neither add nor remove an id: those that only read, those that
    claim or update ids that are all stored (in a tree made by New(name,n) with the
    record m), those that are refused, and releases of ids that are not stored. *)
Definition g_overwrites (c : gcfg) (n : N) (m : record L) (o : gcall L) : Prop :=
  match o with
  | CUpdate x _ | CClaimID x _ => gid_ok c x /\ (2 ^ n <= i_id x \/ lookup_id c m x <> None)
  | CClaimRange s _ => forall x, x ∈ range_prefixes c s -> lookup_id c m x <> None
  | CReleaseID x => gid_ok c x /\ (2 ^ n <= i_id x \/ lookup_id c m x = None)
  | CGet x | CChildren x | CParents x => gid_ok c x
  | CGetByLabel _ | CGetAll | CSize => True
  | CClaimFree _ | CReleaseByLabel _ => False
  end.
(** The call stores the entry e if it is not refused. *)
Definition g_stores (c : gcfg) (o : gcall L) (e : tentry L) : Prop :=
  match o with
  | CUpdate x l | CClaimID x l => e = TEntry (i_id x) (i_len x) l
  | CClaimRange s l => exists x, x ∈ range_prefixes c s /\ e = TEntry (i_id x) (i_len x) l
  | _ => False
  end.
(** e' has the id of e, and its labels or those of one of the calls. *)
Definition g_version (c : gcfg) (todo : list (list (gcall L))) (e e' : tentry L) : Prop :=
  eid e' = eid e /\ (e' = e \/ exists k o, call_of todo k = Some o /\ g_stores c o e').
(** r is r0, but each entry may have been replaced by one with the same id. *)
Definition g_outcome (c : gcfg) (todo : list (list (gcall L))) (r0 r : gcout L) : Prop :=
  match r0 with
  | GREntry (Ok e) => exists e', r = GREntry (Ok e') /\ g_version c todo e e'
  | GRVals (Ok vs) => exists es es', vs = Some <$> es /\ r = GRVals (Ok (Some <$> es')) /\ Forall2 (g_version c todo) es es'
  | _ => r = r0
  end.
(** What GetByLabel may return on a tree whose GetAll returns es: versions of some
    of these entries, in order; those that match whichever version is seen, and none
    that never does. *)
Definition g_selected (c : gcfg) (todo : list (list (gcall L))) (sel : L -> bool) (es : list (tentry L)) (r : gcout L) : Prop :=
  exists ds ds', r = GRVals (Ok (Some <$> ds')) /\ Forall2 (g_version c todo) ds ds' /\ ds `sublist_of` es /\
    (forall e, e ∈ es -> (forall e', g_version c todo e e' -> sel (te_labels e') = true) -> e ∈ ds) /\
    (forall e, e ∈ ds -> exists e', g_version c todo e e' /\ sel (te_labels e') = true).
End Spec.
