(** Model of pkg/table/table16, table32 and table64.  The three packages are the
    same program text except for the constants collected in [tn_cfg].  Line
    numbers are those of table32.go; table16.go is one line further down, in
    table64.go everything after line 150 is three lines up. *)
From Verif Require Export IdxTableModel TreeEntry.

(** The places where table16.go, table32.go and table64.go differ. *)
Record tn_cfg : Type := TNCfg {
  tn_w : N;              (* width of start/end and of the conversions uintN(...) *)
  tn_limit : option N;   (* table32.go:151 the constant in [id > ...]; none in table64 *)
  tn_idlen : N;          (* length of the stored id: idN.IDBitSize, table32.go:53,68,88 *)
  tn_outw : N;           (* width of the id built by GetAll/GetByLabel, table32.go:127,143 *)
  tn_outlen : N          (* its length *)
}.

(** table16.go: 152 (65535), 54 (id16.IDBitSize = 16), 128 and 144: GetAll and
    GetByLabel build id32 ids of length 32. *)
Definition cfg_table16 : tn_cfg := TNCfg 16 (Some 65535) 16 32 32.
(** table32.go: 151 (4294967295), 53, 127, 143. *)
Definition cfg_table32 : tn_cfg := TNCfg 32 (Some 4294967295) 32 32 32.
(** table64.go: no upper limit, 53, 127, 143. *)
Definition cfg_table64 : tn_cfg := TNCfg 64 None 64 64 64.

Section tableN.
Context {L : Type}.
Implicit Types (c : tn_cfg).

(** table32.go:23-27 [table32]. *)
Record tableN : Type := TableN {
  tn_c : tn_cfg; tn_table : table (tentry L); tn_start : N; tn_end : N }.

(** table32.go:13-21 [New]; [end - start + 1] is computed in the width of the
    bounds before the conversion to uint64. *)
Definition tn_new c (start end_ : N) : tableN :=
  TableN c (new_table (uadd (tn_w c) (usub (tn_w c) end_ start) 1)) start end_.

(** table32.go:150-161 [validateID]. *)
Definition tn_validate (r : tableN) (id : N) : res unit :=
  if match tn_limit (tn_c r) with Some lim => lim <? id | None => false end
  then Err EOutsideRange
  else if uwrap (tn_w (tn_c r)) id <? tn_start r then Err EOutsideRange
  else if tn_end r <? uwrap (tn_w (tn_c r)) id then Err EOutsideRange
  else Ok tt.

(** table32.go:163-166 [calculateIndex], applied to uintN(id). *)
Definition tn_index (r : tableN) (id : N) : N :=
  usub (tn_w (tn_c r)) (uwrap (tn_w (tn_c r)) id) (tn_start r).

(** table32.go:168-170 [calculateIDFromIndex]. *)
Definition tn_from_index (r : tableN) (idx : N) : N :=
  uadd (tn_w (tn_c r)) (tn_start r) (uwrap (tn_w (tn_c r)) idx).

(** The table behind table32.go:23-27 replaced. *)
Definition tn_with (r : tableN) (t : table (tentry L)) : tableN :=
  TableN (tn_c r) t (tn_start r) (tn_end r).

(** table32.go:29-41 [Get]. *)
Definition tn_get (r : tableN) (id : N) : res (tentry L) :=
  do _u <- tn_validate r id;
  do e <- get (tn_table r) (tn_index r id);
  Ok (e_data e).

(** The entry stored for index [newid]: table32.go:53-54 and 88-89. *)
Definition tn_stored (r : tableN) (newid : N) (l : L) : tentry L :=
  TEntry (uwrap (tn_w (tn_c r)) newid) (tn_idlen (tn_c r)) l.

(** table32.go:43-56 [Claim]. *)
Definition tn_claim (r : tableN) (id : N) (l : L) : tableN * res unit :=
  match tn_validate r id with
  | Ok _ =>
      let newid := tn_index r id in
      if negb (is_free_op (tn_table r) newid) then (r, Err EAlreadyClaimed)
      else
        let '(t, x) := claim (tn_table r) newid (tn_stored r newid l) in
        (tn_with r t, x)
  | Err e => (r, Err e)
  | Panic => (r, Panic)
  end.

(** table32.go:115-121 [FindFree]. *)
Definition tn_find_free (r : tableN) : res N :=
  do id <- find_free (tn_table r);
  Ok (tn_from_index r id).

(** table32.go:58-71 [ClaimFree]. *)
Definition tn_claim_free (r : tableN) (l : L) : tableN * res (tentry L) :=
  match tn_find_free r with
  | Ok id =>
      match tn_claim r id l with
      | (r', Ok _) => (r', Ok (TEntry (uwrap (tn_w (tn_c r)) id) (tn_idlen (tn_c r)) l))
      | (r', Err e) => (r', Err e)
      | (r', Panic) => (r', Panic)
      end
  | Err e => (r, Err e)
  | Panic => (r, Panic)
  end.

(** table32.go:73-80 [Release]. *)
Definition tn_release (r : tableN) (id : N) : tableN * res unit :=
  match tn_validate r id with
  | Ok _ =>
      let '(t, x) := release (tn_table r) (tn_index r id) in (tn_with r t, x)
  | Err e => (r, Err e)
  | Panic => (r, Panic)
  end.

(** table32.go:82-91 [Update]. *)
Definition tn_update (r : tableN) (id : N) (l : L) : tableN * res unit :=
  match tn_validate r id with
  | Ok _ =>
      let newid := tn_index r id in
      let '(t, x) := update_op (tn_table r) newid (tn_stored r newid l) in
      (tn_with r t, x)
  | Err e => (r, Err e)
  | Panic => (r, Panic)
  end.

(** table32.go:93-95 [Size]. *)
Definition tn_size (r : tableN) : nat := size_op (tn_table r).

(** table32.go:97-104 [Has]. *)
Definition tn_has (r : tableN) (id : N) : bool :=
  match tn_validate r id with
  | Ok _ => has (tn_table r) (tn_index r id)
  | _ => false
  end.

(** table32.go:106-113 [IsFree]. *)
Definition tn_is_free (r : tableN) (id : N) : bool :=
  match tn_validate r id with
  | Ok _ => is_free_op (tn_table r) (tn_index r id)
  | _ => false
  end.

(** table32.go:125-130, the loop of [GetAll]; calling ID() on a nil entry panics. *)
Fixpoint tn_get_all_loop (r : tableN) (es : list (option (entry (tentry L)))) : res (list (tentry L)) :=
  match es with
  | [] => Ok []
  | None :: _ => Panic
  | Some e :: es' =>
      do rest <- tn_get_all_loop r es';
      Ok (TEntry (uwrap (tn_outw (tn_c r)) (tn_from_index r (e_id e)))
                 (tn_outlen (tn_c r)) (te_labels (e_data e)) :: rest)
  end.

(** table32.go:123-132 [GetAll]. *)
Definition tn_get_all (r : tableN) : res (list (tentry L)) :=
  do es <- get_all (tn_table r);
  tn_get_all_loop r es.

(** table32.go:139-146, the loop of [GetByLabel]; Data() of a nil entry panics. *)
Fixpoint tn_get_by_label_loop (r : tableN) (sel : L -> bool)
    (es : list (option (entry (tentry L)))) : res (list (tentry L)) :=
  match es with
  | [] => Ok []
  | None :: _ => Panic
  | Some e :: es' =>
      do rest <- tn_get_by_label_loop r sel es';
      if sel (te_labels (e_data e)) then
        Ok (TEntry (uwrap (tn_outw (tn_c r)) (tn_from_index r (te_id (e_data e))))
                   (tn_outlen (tn_c r)) (te_labels (e_data e)) :: rest)
      else Ok rest
  end.

(** table32.go:134-148 [GetByLabel], run without interference: the values read
    through the iterator are those of the table at the call ([drain_values]). *)
Definition tn_get_by_label (r : tableN) (sel : L -> bool) : res (list (tentry L)) :=
  let it := iterate (tn_table r) in
  do es <- drain_values (S (length (it_keys it))) (t_map (tn_table r)) it;
  tn_get_by_label_loop r sel es.

(** The calls of the interface pkg/table/table.go:8-20 and their results. *)
Inductive top : Type :=
| TGet (id : N) | TClaim (id : N) (l : L) | TClaimFree (l : L) | TRelease (id : N)
| TUpdate (id : N) (l : L) | TSize | THas (id : N) | TIsFree (id : N) | TFindFree
| TGetAll | TGetByLabel (sel : L -> bool).

(** What the calls of table.go:8-20 return; one call; sequences of calls. *)
Inductive tout : Type :=
| TRUnit (x : res unit) | TREntry (x : res (tentry L)) | TRId (x : res N)
| TRInt (n : nat) | TRBool (b : bool) | TREntries (x : res (list (tentry L))).

Definition tn_step (r : tableN) (o : top) : tableN * tout :=
  match o with
  | TGet id => (r, TREntry (tn_get r id))
  | TClaim id l => let '(r', x) := tn_claim r id l in (r', TRUnit x)
  | TClaimFree l => let '(r', x) := tn_claim_free r l in (r', TREntry x)
  | TRelease id => let '(r', x) := tn_release r id in (r', TRUnit x)
  | TUpdate id l => let '(r', x) := tn_update r id l in (r', TRUnit x)
  | TSize => (r, TRInt (tn_size r))
  | THas id => (r, TRBool (tn_has r id))
  | TIsFree id => (r, TRBool (tn_is_free r id))
  | TFindFree => (r, TRId (tn_find_free r))
  | TGetAll => (r, TREntries (tn_get_all r))
  | TGetByLabel sel => (r, TREntries (tn_get_by_label r sel))
  end.

Fixpoint tn_run (r : tableN) (os : list top) : tableN * list tout :=
  match os with
  | [] => (r, [])
  | o :: os' =>
      let '(r1, x) := tn_step r o in
      let '(r2, xs) := tn_run r1 os' in (r2, x :: xs)
  end.

End tableN.

Arguments tableN : clear implicits.
Arguments top : clear implicits.
Arguments tout : clear implicits.
