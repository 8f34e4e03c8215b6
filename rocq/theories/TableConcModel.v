(** The calls of table16/32/64 and of iptable as clients of an idxtable: which
    methods of the underlying table they call, and what they read from it without
    a lock.  The bounds of the tables are never written; they are passed as a
    table [r] whose contents are not used.  Line numbers are those of table32.go,
    see TableNModel.v. *)
From Verif Require Export IdxConcModel IPTableModel TableNModel.

Section tableN.
Context {L : Type}.
Notation client := (client (table (tentry L)) (out (tentry L)) (op (tentry L)) (tout L)).

(** The results of the methods of idxtable (table.go:9-30), as Go values; a result of another type does not
    occur. *)
Definition as_unit {T} (x : out T) : res unit := match x with RUnit v => v | _ => Panic end.
Definition as_id {T} (x : out T) : res N := match x with RId v => v | _ => Panic end.
Definition as_bool {T} (x : out T) : bool := match x with RBool b => b | _ => false end.
Definition as_int {T} (x : out T) : nat := match x with RInt n => n | _ => 0%nat end.
Definition as_entry {T} (x : out T) : res (entry T) := match x with REntry v => v | _ => Panic end.
Definition as_ids {T} (x : out T) : res (list N) := match x with RIds v => v | _ => Panic end.
Definition as_values {T} (x : out T) : res (list (option (entry T))) := match x with RValues v => v | _ => Panic end.

(** table32.go:43-56 [Claim]. *)
Definition c_claim (r : tableN L) (id : N) (l : L) (k : res unit -> client) : client :=
  match tn_validate r id with
  | Ok _ =>
      let newid := tn_index r id in
      CCall (OIsFree newid) (fun b =>
        if negb (as_bool b) then k (Err EAlreadyClaimed)
        else CCall (OClaim newid (tn_stored r newid l)) (fun x => k (as_unit x)))
  | Err e => k (Err e)
  | Panic => k Panic
  end.

(** table32.go:115-121 [FindFree]. *)
Definition c_find_free (r : tableN L) (k : res N -> client) : client :=
  CCall OFindFree (fun x => k (do id <- as_id x; Ok (tn_from_index r id))).

(** table32.go:139-146, the loop of [GetByLabel]: one read of the live map per key. *)
Fixpoint c_by_label (r : tableN L) (sel : L -> bool) (keys : list N) (es : list (tentry L)) : client :=
  match keys with
  | [] => CRet (TREntries (Ok es))
  | key :: keys' =>
      CPeek (fun d =>
        match t_map d !! key with
        | None => CRet (TREntries Panic)
        | Some e =>
            c_by_label r sel keys'
              (if sel (te_labels (e_data e)) then
                 es ++ [TEntry (uwrap (tn_outw (tn_c r)) (tn_from_index r (te_id (e_data e))))
                               (tn_outlen (tn_c r)) (te_labels (e_data e))]
               else es)
        end)
  end.

(** The calls of table.go:8-20, at the lines of table32.go given. *)
Definition tn_call (r : tableN L) (o : top L) : client :=
  match o with
  | TGet id => (* 29-41 *)
      match tn_validate r id with
      | Ok _ => CCall (OGet (tn_index r id)) (fun x => CRet (TREntry (do e <- as_entry x; Ok (e_data e))))
      | Err e => CRet (TREntry (Err e))
      | Panic => CRet (TREntry Panic)
      end
  | TClaim id l => c_claim r id l (fun x => CRet (TRUnit x))
  | TClaimFree l => (* 58-71 *)
      c_find_free r (fun v =>
        match v with
        | Ok id => c_claim r id l (fun x =>
            CRet (TREntry (do _u <- x; Ok (TEntry (uwrap (tn_w (tn_c r)) id) (tn_idlen (tn_c r)) l))))
        | Err e => CRet (TREntry (Err e))
        | Panic => CRet (TREntry Panic)
        end)
  | TRelease id => (* 73-80 *)
      match tn_validate r id with
      | Ok _ => CCall (ORelease (tn_index r id)) (fun x => CRet (TRUnit (as_unit x)))
      | Err e => CRet (TRUnit (Err e))
      | Panic => CRet (TRUnit Panic)
      end
  | TUpdate id l => (* 82-91 *)
      match tn_validate r id with
      | Ok _ =>
          let newid := tn_index r id in
          CCall (OUpdate newid (tn_stored r newid l)) (fun x => CRet (TRUnit (as_unit x)))
      | Err e => CRet (TRUnit (Err e))
      | Panic => CRet (TRUnit Panic)
      end
  | TSize => CCall OSize (fun x => CRet (TRInt (as_int x))) (* 93-95 *)
  | THas id => (* 97-104 *)
      match tn_validate r id with
      | Ok _ => CCall (OHas (tn_index r id)) (fun x => CRet (TRBool (as_bool x)))
      | _ => CRet (TRBool false)
      end
  | TIsFree id => (* 106-113 *)
      match tn_validate r id with
      | Ok _ => CCall (OIsFree (tn_index r id)) (fun x => CRet (TRBool (as_bool x)))
      | _ => CRet (TRBool false)
      end
  | TFindFree => c_find_free r (fun v => CRet (TRId v))
  | TGetAll => (* 123-132; Size() at 124 is only a capacity *)
      CCall OSize (fun _ => CCall OGetAll (fun x =>
        CRet (TREntries (do es <- as_values x; tn_get_all_loop r es))))
  | TGetByLabel sel => (* 134-148 *)
      CCall OSize (fun _ => CCall OIterate (fun x =>
        match as_ids x with
        | Ok keys => c_by_label r sel keys []
        | Err e => CRet (TREntries (Err e))
        | Panic => CRet (TREntries Panic)
        end))
  end.

(** Goroutines that call a table. *)
Definition tn_system (r : tableN L) (todo : list (list (top L)))
    : sys (table (tentry L)) (out (tentry L)) (op (tentry L)) (tout L) :=
  start (tn_table r) (map (map (tn_call r)) todo).
End tableN.

Section iptable.
Context {S D : Type} (parse : S -> option addr).
Notation client := (client (table D) (out D) (op D) (iout D)).

(** iptable.go:142-147, the loop of [GetByLabel]: the value is read again when
    the selector matches. *)
Fixpoint ci_by_label (sel : D -> bool) (keys : list N) (rs : list D) : client :=
  match keys with
  | [] => CRet (IRDatas (Ok rs))
  | key :: keys' =>
      CPeek (fun d =>
        match t_map d !! key with
        | None => CRet (IRDatas Panic)
        | Some e =>
            if sel (e_data e) then
              CPeek (fun d' =>
                match t_map d' !! key with
                | None => CRet (IRDatas Panic)
                | Some e' => ci_by_label sel keys' (rs ++ [e_data e'])
                end)
            else ci_by_label sel keys' rs
        end)
  end.

(** The calls of iptable.go:13-28, at the lines given. *)
Definition ip_call (r : iptable D) (o : iop S D) : client :=
  match o with
  | IGet s => (* iptable.go:44-57 *)
      match ip_validate parse r s with
      | Ok a => CCall (OGet (calculate_index a (ip_from r))) (fun x =>
                  CRet (IRData (do e <- as_entry x; Ok (e_data e))))
      | Err e => CRet (IRData (Err e))
      | Panic => CRet (IRData Panic)
      end
  | IClaim s d => (* 59-70 *)
      match ip_validate parse r s with
      | Ok a =>
          let id := calculate_index a (ip_from r) in
          CCall (OIsFree id) (fun b =>
            if negb (as_bool b) then CRet (IRUnit (Err EAlreadyClaimed))
            else CCall (OClaim id d) (fun x => CRet (IRUnit (as_unit x))))
      | Err e => CRet (IRUnit (Err e))
      | Panic => CRet (IRUnit Panic)
      end
  | IRelease s => (* 72-80 *)
      match ip_validate parse r s with
      | Ok a => CCall (ORelease (calculate_index a (ip_from r))) (fun x => CRet (IRUnit (as_unit x)))
      | Err e => CRet (IRUnit (Err e))
      | Panic => CRet (IRUnit Panic)
      end
  | IUpdate s d => (* 82-93 *)
      match ip_validate parse r s with
      | Ok a =>
          let id := calculate_index a (ip_from r) in
          CCall (OIsFree id) (fun b =>
            if as_bool b then CRet (IRUnit (Err ENotClaimed))
            else CCall (OUpdate id d) (fun x => CRet (IRUnit (as_unit x))))
      | Err e => CRet (IRUnit (Err e))
      | Panic => CRet (IRUnit Panic)
      end
  | ISize => CCall OSize (fun x => CRet (IRInt (as_int x))) (* 95-97 *)
  | IHas s => (* 99-107 *)
      match ip_validate parse r s with
      | Ok a => CCall (OHas (calculate_index a (ip_from r))) (fun x => CRet (IRBool (as_bool x)))
      | _ => CRet (IRBool false)
      end
  | IIsFree s => (* 109-117 *)
      match ip_validate parse r s with
      | Ok a => CCall (OIsFree (calculate_index a (ip_from r))) (fun x => CRet (IRBool (as_bool x)))
      | _ => CRet (IRBool false)
      end
  | IFindFree => (* 119-127 *)
      CCall OFindFree (fun x => CRet (IRAddr (do id <- as_id x; calculate_ip_from_index (ip_from r) id)))
  | IGetAll => (* 129-135 *)
      CCall OGetAll (fun x => CRet (IRDatas (do es <- as_values x; ip_data es)))
  | IGetByLabel sel => (* 137-150 *)
      CCall OIterate (fun x =>
        match as_ids x with
        | Ok keys => ci_by_label sel keys []
        | Err e => CRet (IRDatas (Err e))
        | Panic => CRet (IRDatas Panic)
        end)
  end.

(** Goroutines that call a table. *)
Definition ip_system (r : iptable D) (todo : list (list (iop S D)))
    : sys (table D) (out D) (op D) (iout D) :=
  start (ip_table r) (map (map (ip_call r)) todo).
End iptable.
