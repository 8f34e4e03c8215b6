(** Model of pkg/iptable/iptable.go, with the parts of net/netip and
    go4.org/netipx it uses. *)
From Verif Require Export IdxTableModel.

(** net/netip.Addr: the zero Addr, an IPv4 or an IPv6 address.  [a_val] is the
    128-bit number of As16 (IPv4 in its ::ffff:0:0/96 form); [a_zone] is the IPv6
    zone, 0 for the empty zone (zone names are numbered; their order is that of
    the numbers). *)
Inductive akind : Set := KZero | K4 | K6.
Record addr : Type := Addr { a_kind : akind; a_val : N; a_zone : N }.

(** The prefix ::ffff:0:0/96 of an IPv4 address in 16 bytes. *)
Definition v4_base : N := 0xffff00000000.

(** netip.Addr.BitLen (in the comparisons of iptable.go:152-162). *)
Definition bit_len (a : addr) : N :=
  match a_kind a with KZero => 0 | K4 => 32 | K6 => 128 end.

(** netip.Addr.Compare: by bit length, then value, then (IPv6) zone. *)
Definition addr_compare (a b : addr) : comparison :=
  match bit_len a ?= bit_len b with
  | Eq =>
      match a_val a ?= a_val b with
      | Eq => match a_kind a with K6 => a_zone a ?= a_zone b | _ => Eq end
      | c => c
      end
  | c => c
  end.

(** netip.Addr.Is4In6 on a value: the 96-bit prefix is ::ffff. *)
Definition is_4in6 (v : N) : bool := v / 2 ^ 32 =? 0xffff.

(** iptable.go:178-184 [ipToInt]; the zero Addr gives 0. *)
Definition ip_to_int (a : addr) : N :=
  match a_kind a with KZero => 0 | _ => a_val a end.

(** big.Int.Uint64, the low 64 bits of |x| (iptable.go, calculateIndex and numIPs). *)
Definition low64 (x : Z) : N := Z.to_N (Z.abs x) mod 2 ^ 64.

(** iptable.go:164-167 [calculateIndex]. *)
Definition calculate_index (ip start : addr) : N :=
  low64 (Z.of_N (ip_to_int ip) - Z.of_N (ip_to_int start))%Z.

(** iptable.go:169-176 [numIPs] converted to uint64 (iptable.go:33): Int64 takes
    the low 64 bits of |diff| and negates them for a negative diff; adding 1 and
    converting is arithmetic modulo 2^64. *)
Definition num_ips (start end_ : addr) : N :=
  let diff := (Z.of_N (ip_to_int end_) - Z.of_N (ip_to_int start))%Z in
  let i64 := if (diff <? 0)%Z then (- Z.of_N (low64 diff))%Z else Z.of_N (low64 diff) in
  Z.to_N ((i64 + 1) mod 2 ^ 64)%Z.

(** iptable.go:188-200: the 16 bytes copied from big.Int.Bytes of a sum below
    2^128 + 2^64: shorter sums are padded on the left, a 17-byte sum loses its
    last byte. *)
Definition bytes16 (v : N) : N := if v <? 2 ^ 128 then v else v / 256.

(** iptable.go:186-206 [calculateIPFromIndex]; As4 panics on an IPv6 address
    that is not IPv4-mapped. *)
Definition calculate_ip_from_index (start : addr) (id : N) : res addr :=
  let v := bytes16 (ip_to_int start + id) in
  match a_kind start with
  | K4 => if is_4in6 v then Ok (Addr K4 v 0) else Panic
  | _ => Ok (Addr K6 v 0)
  end.

Section iptable.
(** [S]: address strings; [parse] is netip.ParseAddr (None for an error);
    [D] is nipam's table.Route; a selector is a predicate on its labels, hence
    on [D]. *)
Context {S D : Type} (parse : S -> option addr).

(** iptable.go:39-42 [ipTable]. *)
Record iptable : Type := IPTable {
  ip_table : table D; ip_from : addr; ip_to : addr }.

(** iptable.go:30-37 [New]. *)
Definition ip_new (from to : addr) : iptable :=
  IPTable (new_table (num_ips from to)) from to.

(** netipx.IPRange.IsValid: both bounds set, of one family and zone, not reversed. *)
Definition iprange_valid (from to : addr) : bool :=
  match a_kind from with KZero => false | _ => true end &&
  (bit_len from =? bit_len to) && (a_zone from =? a_zone to) &&
  match addr_compare to from with Lt => false | _ => true end.

(** netipx.IPRange.Contains. *)
Definition iprange_contains (from to a : addr) : bool :=
  iprange_valid from to && (a_zone a =? 0) &&
  match addr_compare from a with Gt => false | _ => true end &&
  match addr_compare to a with Lt => false | _ => true end.

(** iptable.go:152-162 [validateIP]. *)
Definition ip_validate (r : iptable) (s : S) : res addr :=
  match parse s with
  | None => Err EBadAddr
  | Some a => if iprange_contains (ip_from r) (ip_to r) a then Ok a else Err EOutsideRange
  end.

(** The table behind iptable.go:39-42 replaced. *)
Definition ip_with (r : iptable) (t : table D) : iptable := IPTable t (ip_from r) (ip_to r).

(** iptable.go:44-57 [Get]. *)
Definition ip_get (r : iptable) (s : S) : res D :=
  do a <- ip_validate r s;
  do e <- get (ip_table r) (calculate_index a (ip_from r));
  Ok (e_data e).

(** iptable.go:59-70 [Claim]. *)
Definition ip_claim (r : iptable) (s : S) (d : D) : iptable * res unit :=
  match ip_validate r s with
  | Ok a =>
      let id := calculate_index a (ip_from r) in
      if negb (is_free_op (ip_table r) id) then (r, Err EAlreadyClaimed)
      else let '(t, x) := claim (ip_table r) id d in (ip_with r t, x)
  | Err e => (r, Err e)
  | Panic => (r, Panic)
  end.

(** iptable.go:72-80 [Release]. *)
Definition ip_release (r : iptable) (s : S) : iptable * res unit :=
  match ip_validate r s with
  | Ok a => let '(t, x) := release (ip_table r) (calculate_index a (ip_from r)) in (ip_with r t, x)
  | Err e => (r, Err e)
  | Panic => (r, Panic)
  end.

(** iptable.go:82-93 [Update]. *)
Definition ip_update (r : iptable) (s : S) (d : D) : iptable * res unit :=
  match ip_validate r s with
  | Ok a =>
      let id := calculate_index a (ip_from r) in
      if is_free_op (ip_table r) id then (r, Err ENotClaimed)
      else let '(t, x) := update_op (ip_table r) id d in (ip_with r t, x)
  | Err e => (r, Err e)
  | Panic => (r, Panic)
  end.

(** iptable.go:95-97 [Size]. *)
Definition ip_size (r : iptable) : nat := size_op (ip_table r).

(** iptable.go:99-107 [Has]. *)
Definition ip_has (r : iptable) (s : S) : bool :=
  match ip_validate r s with
  | Ok a => has (ip_table r) (calculate_index a (ip_from r))
  | _ => false
  end.

(** iptable.go:109-117 [IsFree]. *)
Definition ip_is_free (r : iptable) (s : S) : bool :=
  match ip_validate r s with
  | Ok a => is_free_op (ip_table r) (calculate_index a (ip_from r))
  | _ => false
  end.

(** iptable.go:119-127 [FindFree]. *)
Definition ip_find_free (r : iptable) : res addr :=
  do id <- find_free (ip_table r);
  calculate_ip_from_index (ip_from r) id.

(** iptable.go:129-135 [GetAll]; Data() of a nil entry panics. *)
Fixpoint ip_data (es : list (option (entry D))) : res (list D) :=
  match es with
  | [] => Ok []
  | None :: _ => Panic
  | Some e :: es' => do rest <- ip_data es'; Ok (e_data e :: rest)
  end.
Definition ip_get_all (r : iptable) : res (list D) :=
  do es <- get_all (ip_table r); ip_data es.

(** iptable.go:137-150 [GetByLabel], run without interference. *)
Fixpoint ip_by_label (sel : D -> bool) (es : list (option (entry D))) : res (list D) :=
  match es with
  | [] => Ok []
  | None :: _ => Panic
  | Some e :: es' =>
      do rest <- ip_by_label sel es';
      if sel (e_data e) then Ok (e_data e :: rest) else Ok rest
  end.
Definition ip_get_by_label (r : iptable) (sel : D -> bool) : res (list D) :=
  let it := iterate (ip_table r) in
  do es <- drain_values (Datatypes.S (length (it_keys it))) (t_map (ip_table r)) it;
  ip_by_label sel es.

(** The calls of the interface iptable.go:14-28 and their results. *)
Inductive iop : Type :=
| IGet (s : S) | IClaim (s : S) (d : D) | IRelease (s : S) | IUpdate (s : S) (d : D)
| ISize | IHas (s : S) | IIsFree (s : S) | IFindFree | IGetAll | IGetByLabel (sel : D -> bool).
Inductive iout : Type :=
| IRUnit (x : res unit) | IRData (x : res D) | IRAddr (x : res addr) | IRInt (n : nat)
| IRBool (b : bool) | IRDatas (x : res (list D)).

(** One call of the interface iptable.go:13-28, and sequences of them. *)
Definition ip_step (r : iptable) (o : iop) : iptable * iout :=
  match o with
  | IGet s => (r, IRData (ip_get r s))
  | IClaim s d => let '(r', x) := ip_claim r s d in (r', IRUnit x)
  | IRelease s => let '(r', x) := ip_release r s in (r', IRUnit x)
  | IUpdate s d => let '(r', x) := ip_update r s d in (r', IRUnit x)
  | ISize => (r, IRInt (ip_size r))
  | IHas s => (r, IRBool (ip_has r s))
  | IIsFree s => (r, IRBool (ip_is_free r s))
  | IFindFree => (r, IRAddr (ip_find_free r))
  | IGetAll => (r, IRDatas (ip_get_all r))
  | IGetByLabel sel => (r, IRDatas (ip_get_by_label r sel))
  end.

Fixpoint ip_run (r : iptable) (os : list iop) : iptable * list iout :=
  match os with
  | [] => (r, [])
  | o :: os' =>
      let '(r1, x) := ip_step r o in
      let '(r2, xs) := ip_run r1 os' in (r2, x :: xs)
  end.

End iptable.

Arguments iptable : clear implicits.
Arguments iop : clear implicits.
Arguments iout : clear implicits.
