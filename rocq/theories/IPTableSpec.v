(** Vocabulary for the statements about pkg/iptable. *)
From Verif Require Export IPTableModel IdxTableSpec.

(** An address as net/netip produces it: an IPv4 address lies in ::ffff:0:0/96
    and has no zone. *)
Definition addr_wf (a : addr) : Prop :=
  match a_kind a with
  | KZero => a_val a = 0 /\ a_zone a = 0
  | K4 => v4_base <= a_val a < v4_base + 2 ^ 32 /\ a_zone a = 0
  | K6 => a_val a < 2 ^ 128
  end.

(** [from,to] is a range of one family, without zones. *)
Definition ip_range (from to : addr) : Prop :=
  addr_wf from /\ addr_wf to /\ a_zone from = 0 /\ a_zone to = 0 /\
  a_kind from = a_kind to /\ a_kind from <> KZero /\ a_val from <= a_val to.

(** [from,to] is no range: a bound is not set, they are of two families or zones,
    or the first is above the second. *)
Definition no_ip_range (from to : addr) : Prop :=
  a_kind from = KZero \/ a_kind from <> a_kind to \/ a_zone from <> a_zone to \/ a_val to < a_val from.

(** [from,to] is an IPv6 range with a zone. *)
Definition zoned_ip_range (from to : addr) : Prop :=
  a_kind from = K6 /\ a_kind to = K6 /\ a_zone from <> 0 /\ a_zone to = a_zone from /\
  addr_wf from /\ addr_wf to /\ a_val from <= a_val to.

(** [a] is an IPv6 address without a zone, above [from] and not above [to]. *)
Definition above_zoned (from to a : addr) : Prop :=
  a_kind a = K6 /\ a_zone a = 0 /\ a_val from < a_val a <= a_val to.

(** [a] is an address of the range. *)
Definition in_ip_range (from to a : addr) : Prop :=
  a_kind a = a_kind from /\ a_zone a = 0 /\ a_val from <= a_val a <= a_val to.
Definition in_ip_rangeb (from to a : addr) : bool :=
  match a_kind a, a_kind from with K4, K4 | K6, K6 => true | _, _ => false end &&
  (a_zone a =? 0) && (a_val from <=? a_val a) && (a_val a <=? a_val to).

Section spec.
Context {S D : Type} (parse : S -> option addr).

(** The claimed addresses (as 128-bit numbers; all are of the family of the
    range) with their data. *)
Definition ip_claimed (r : iptable D) : gmap N D :=
  kmap (N.add (a_val (ip_from r))) (claimed (ip_table r)).

Definition ip_reachable (from to : addr) (r : iptable D) : Prop :=
  exists os, fst (ip_run parse (ip_new from to) os) = r.

Definition ip_single (o : iop S D) : bool :=
  match o with
  | IGet _ | IClaim _ _ | IRelease _ | IUpdate _ _ | ISize | IHas _ | IIsFree _ => true
  | _ => false
  end.

(** What a map over the addresses of the range does with a call on the string
    [s]: unparsable and outside addresses are refused. *)
Definition ip_arg (from to : addr) (s : S) : res N :=
  match parse s with
  | None => Err EBadAddr
  | Some a => if in_ip_rangeb from to a then Ok (a_val a) else Err EOutsideRange
  end.

Definition ip_spec (from to : addr) (m : gmap N D) (o : iop S D) : gmap N D * iout D :=
  match o with
  | IGet s =>
      (m, IRData (do v <- ip_arg from to s;
                  match m !! v with Some d => Ok d | None => Err ENoEntry end))
  | IClaim s d =>
      match ip_arg from to s with
      | Ok v => match m !! v with
                | None => (<[v := d]> m, IRUnit (Ok tt))
                | Some _ => (m, IRUnit (Err EAlreadyClaimed))
                end
      | Err e => (m, IRUnit (Err e))
      | Panic => (m, IRUnit Panic)
      end
  | IRelease s =>
      match ip_arg from to s with
      | Ok v => (delete v m, IRUnit (Ok tt))
      | Err e => (m, IRUnit (Err e))
      | Panic => (m, IRUnit Panic)
      end
  | IUpdate s d =>
      match ip_arg from to s with
      | Ok v => match m !! v with
                | Some _ => (<[v := d]> m, IRUnit (Ok tt))
                | None => (m, IRUnit (Err ENotClaimed))
                end
      | Err e => (m, IRUnit (Err e))
      | Panic => (m, IRUnit Panic)
      end
  | ISize => (m, IRInt (size m))
  | IHas s => (m, IRBool match ip_arg from to s with
                         | Ok v => bool_decide (is_Some (m !! v)) | _ => false end)
  | IIsFree s => (m, IRBool match ip_arg from to s with
                            | Ok v => bool_decide (m !! v = None) | _ => false end)
  | _ => (m, IRBool false)
  end.

Fixpoint ip_spec_run (from to : addr) (m : gmap N D) (os : list (iop S D)) : gmap N D * list (iout D) :=
  match os with
  | [] => (m, [])
  | o :: os' =>
      let '(m1, x) := ip_spec from to m o in
      let '(m2, xs) := ip_spec_run from to m1 os' in (m2, x :: xs)
  end.

(** What the table does over a range of any width: it has one slot for all the
    addresses of the range that are a multiple of 2^64 apart, and ... *)
Definition ip_slot (from a : addr) : N := (a_val a - a_val from) mod 2 ^ 64.
(** ... only as many slots as the number of addresses leaves modulo 2^64. *)
Definition ip_slots (from to : addr) : N :=
  match (a_val to - a_val from + 1) mod 2 ^ 64 with 0 => 2 ^ 64 | n => n end.

Definition ip_slot_arg (from to : addr) (s : S) : res N :=
  match parse s with
  | None => Err EBadAddr
  | Some a => if in_ip_rangeb from to a then Ok (ip_slot from a) else Err EOutsideRange
  end.

Definition ip_slot_spec (from to : addr) (m : gmap N D) (o : iop S D) : gmap N D * iout D :=
  match o with
  | IGet s =>
      (m, IRData (do k <- ip_slot_arg from to s;
                  if k <? ip_slots from to then match m !! k with Some d => Ok d | None => Err ENoEntry end
                  else Err EIdTooBig))
  | IClaim s d =>
      match ip_slot_arg from to s with
      | Ok k => match m !! k with
                | Some _ => (m, IRUnit (Err EAlreadyClaimed))
                | None => if k <? ip_slots from to then (<[k := d]> m, IRUnit (Ok tt))
                          else (m, IRUnit (Err EIdTooBig))
                end
      | Err e => (m, IRUnit (Err e))
      | Panic => (m, IRUnit Panic)
      end
  | IRelease s =>
      match ip_slot_arg from to s with
      | Ok k => if k <? ip_slots from to then (delete k m, IRUnit (Ok tt)) else (m, IRUnit (Err EIdTooBig))
      | Err e => (m, IRUnit (Err e))
      | Panic => (m, IRUnit Panic)
      end
  | IUpdate s d =>
      match ip_slot_arg from to s with
      | Ok k => match m !! k with
                | Some _ => (<[k := d]> m, IRUnit (Ok tt))
                | None => (m, IRUnit (Err ENotClaimed))
                end
      | Err e => (m, IRUnit (Err e))
      | Panic => (m, IRUnit Panic)
      end
  | ISize => (m, IRInt (size m))
  | IHas s => (m, IRBool match ip_slot_arg from to s with
                         | Ok k => bool_decide (is_Some (m !! k)) | _ => false end)
  | IIsFree s => (m, IRBool match ip_slot_arg from to s with
                            | Ok k => bool_decide (m !! k = None) | _ => false end)
  | _ => (m, IRBool false)
  end.

(** The claimed slots after the calls [os]. *)
Definition ip_slot_run (from to : addr) (os : list (iop S D)) : gmap N D :=
  foldl (fun m o => fst (ip_slot_spec from to m o)) ∅ os.

Definition ip_unclaimed (from to : addr) (m : gmap N D) (v : N) : Prop :=
  a_val from <= v <= a_val to /\ m !! v = None.
End spec.
