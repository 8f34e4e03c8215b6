(** Model of pkg/tree/id16, id32, id64: ids, masks, ranges (idN.go, myuintN.go,
    rangeN.go).  The three packages are the same program over different
    constants; the constants and the functions that differ are in [idcfg].  Line
    numbers are those of id32 unless another package is named. *)
From Verif Require Export GoBase.
From Coq Require Export Strings.Ascii.
From Coq Require Strings.String DecimalString.
Notation string := String.string.

(** id16/myuint16.go:78-96 [mask6], copied entry by entry. *)
Definition mask6_16 : list N := [
   0x0000; 0x8000; 0xc000; 0xe000; 0xf000; 0xf800;
   0xfc00; 0xfe00; 0xff00; 0xff80; 0xffc0; 0xffe0;
   0xfff0; 0xfff8; 0xfffc; 0xfffe; 0xffff].

(** id32/myuint32.go:53-87 [mask6], copied entry by entry. *)
Definition mask6_32 : list N := [
   0x00000000; 0x80000000; 0xc0000000; 0xe0000000; 0xf0000000;
   0xf8000000; 0xfc000000; 0xfe000000; 0xff000000; 0xff800000;
   0xffc00000; 0xffe00000; 0xfff00000; 0xfff80000; 0xfffc0000;
   0xfffe0000; 0xffff0000; 0xffff8000; 0xffffc000; 0xffffe000;
   0xfffff000; 0xfffff800; 0xfffffc00; 0xfffffe00; 0xffffff00;
   0xffffff80; 0xffffffc0; 0xffffffe0; 0xfffffff0; 0xfffffff8;
   0xfffffffc; 0xfffffffe; 0xffffffff].

(** id64/myuint64.go:53-119 [mask6], copied entry by entry. *)
Definition mask6_64 : list N := [
   0xffffffff00000000; 0x8000000000000000; 0xc000000000000000;
   0xe000000000000000; 0xf000000000000000; 0xf800000000000000;
   0xfc00000000000000; 0xfe00000000000000; 0xff00000000000000;
   0xff80000000000000; 0xffc0000000000000; 0xffe0000000000000;
   0xfff0000000000000; 0xfff8000000000000; 0xfffc000000000000;
   0xfffe000000000000; 0xffff000000000000; 0xffff800000000000;
   0xffffc00000000000; 0xffffe00000000000; 0xfffff00000000000;
   0xfffff80000000000; 0xfffffc0000000000; 0xfffffe0000000000;
   0xffffff0000000000; 0xffffff8000000000; 0xffffffc000000000;
   0xffffffe000000000; 0xfffffff000000000; 0xfffffff800000000;
   0xfffffffc00000000; 0xfffffffe00000000; 0xffffffff00000000;
   0xffffffff80000000; 0xffffffffc0000000; 0xffffffffe0000000;
   0xfffffffff0000000; 0xfffffffff8000000; 0xfffffffffc000000;
   0xfffffffffe000000; 0xffffffffff000000; 0xffffffffff800000;
   0xffffffffffc00000; 0xffffffffffe00000; 0xfffffffffff00000;
   0xfffffffffff80000; 0xfffffffffffc0000; 0xfffffffffffe0000;
   0xffffffffffff0000; 0xffffffffffff8000; 0xffffffffffffc000;
   0xffffffffffffe000; 0xfffffffffffff000; 0xfffffffffffff800;
   0xfffffffffffffc00; 0xfffffffffffffe00; 0xffffffffffffff00;
   0xffffffffffffff80; 0xffffffffffffffc0; 0xffffffffffffffe0;
   0xfffffffffffffff0; 0xfffffffffffffff8; 0xfffffffffffffffc;
   0xfffffffffffffffe; 0xffffffffffffffff].

(** math/bits.Sub32 (id32.go via myuint32.go:29-33) and Sub16 (id16/myuint16.go:44-52)
    with y = 1, borrow = 0, followed by [lo - borrow] (subOne): the same bit
    formula on width [w]. *)
Definition sub_one (w x : N) : N :=
  let diff := usub w x 1 in
  let borrow := N.shiftr (N.lor (N.land (unot w x) 1) (N.land (unot w (N.lxor x 1)) diff)) (w - 1) in
  usub w diff borrow.

(** bits.Add32/Add64 and Add16 (id16/myuint16.go:59-64) with y = 1, carry = 0,
    followed by [lo + carry] (addOne, myuint32.go:35-39). *)
Definition add_one (w x : N) : N :=
  let sum := x + 1 in uadd w (sum mod 2 ^ w) (sum / 2 ^ w).

(** What differs between the packages id16, id32 and id64: id16.go:10, id32.go:10,
    id64.go:10 (IDBitSize), mask6, the limit of Mask (id32.go:132), subOne and
    addOne (myuint32.go:29-39). *)
Record idcfg : Type := IdCfg {
  id_w : N;                (* IDBitSize *)
  id_mask6 : list N;       (* mask6 *)
  id_masklim : N;          (* the largest l accepted by Mask *)
  id_subone : N -> N;
  id_addone : N -> N }.

(** id16.go:10, 132; id32.go:10, 132. *)
Definition cfg_id16 : idcfg := IdCfg 16 mask6_16 16 (sub_one 16) (add_one 16).
Definition cfg_id32 : idcfg := IdCfg 32 mask6_32 32 (sub_one 32) (add_one 32).
(** id64.go:132 limits Mask to 32; id64/myuint64.go:30-33 subtracts with
    bits.Sub32 on uint32(u). *)
Definition cfg_id64 : idcfg :=
  IdCfg 64 mask6_64 32 (fun x => sub_one 32 (uwrap 32 x)) (add_one 64).

(** id32.go:18-28 [myid32], [NewID]; id32.go:30-43 Copy, Length, ID are the
    record itself and its fields.  IDs are values (the pointers produced by
    makeID, range32.go:90-92, are only ever read through the interface). *)
Record id : Type := MyId { i_id : N; i_len : N }.

(** == on tree.ID values of one package (idset.go, range32.go). *)
Definition id_eqb (a b : id) : bool := (i_id a =? i_id b) && (i_len a =? i_len b).

(** id32.go:45-50 [ShiftLeft]. *)
Definition shift_left (c : idcfg) (x : id) (s : N) : id :=
  MyId (ushl (id_w c) (i_id x) s) (usub 8 (i_len x) s).

(** id32.go:52-55 (method) and 14-16 (function, on a uint64) [IsLeftBitSet]. *)
Definition is_left_bit_set (c : idcfg) (x : id) : bool := 2 ^ (id_w c - 1) <=? i_id x.
Definition is_left_bit_set_fn (c : idcfg) (v : N) : bool := 2 ^ (id_w c - 1) <=? uwrap (id_w c) v.

(** id32.go:62-64 [Matches]. *)
Definition matches (c : idcfg) (x : id) (v : N) : N :=
  lz (id_w c) (N.lxor (uwrap (id_w c) v) (i_id x)).

(** mask6[l] (id32.go:76, 135; myuint32.go); an index outside the array panics. *)
Definition mask6 (c : idcfg) (l : N) : res N :=
  match id_mask6 c !! N.to_nat l with Some m => Ok m | None => Panic end.

(** id32.go:66-80 [Overlaps]. *)
Definition overlaps (c : idcfg) (a b : id) : res bool :=
  let minbits := if i_len a <? i_len b then i_len a else i_len b in
  if minbits =? 0 then Ok true
  else
    do m <- mask6 c minbits;
    Ok (N.land (i_id a) m =? N.land (uwrap (id_w c) (i_id b)) m).

(** id32.go:85-100 [Compare]: -1, 0, 1 are Lt, Eq, Gt. *)
Definition id_compare (a b : id) : comparison :=
  if i_len a <? i_len b then Lt
  else if i_len b <? i_len a then Gt
  else if i_id a <? i_id b then Lt
  else if i_id b <? i_id a then Gt
  else Eq.

(** id32.go:105 [Less]; range32.go:100 [lessOrEq]. *)
Definition id_less (a b : id) : bool := match id_compare a b with Lt => true | _ => false end.
Definition less_or_eq (a b : id) : bool := match id_compare a b with Gt => false | _ => true end.

(** id32.go:109-117 [Next]. *)
Definition id_next (c : idcfg) (x : id) : id :=
  let v := id_addone c (i_id x) in
  if v =? 0 then MyId 0 0 else MyId v (i_len x).

(** id32.go:121-127 [Prev]. *)
Definition id_prev (c : idcfg) (x : id) : id :=
  if i_id x =? 0 then MyId 0 0 else MyId (id_subone c (i_id x)) (i_len x).

(** id32.go:131-137 [Mask]. *)
Definition id_mask (c : idcfg) (x : id) (l : N) : res id :=
  if id_masklim c <? l then Err EMaskTooLong
  else do m <- mask6 c l; Ok (MyId (N.land (i_id x) m) l).

(** id32.go:139-142 [Masked]: nil (None) when Mask fails. *)
Definition id_masked (c : idcfg) (x : id) : res (option id) :=
  match id_mask c x (i_len x) with
  | Ok y => Ok (Some y)
  | Err _ => Ok None
  | Panic => Panic
  end.

(** range32.go:13-16 [r32] and 25-39.  Bounds are non-nil; the zero range r32{}
    only comes out of RangeOfID and is [None] there. *)
Record range : Type := Range { r_from : id; r_to : id }.

(** range32.go:18-23 [RangeFrom]; 31-39 [SetTo], [SetFrom]. *)
Definition range_from (c : idcfg) (a b : N) : range := Range (MyId a (id_w c)) (MyId b (id_w c)).
Definition set_to (r : range) (x : id) : range := Range (r_from r) x.
Definition set_from (r : range) (x : id) : range := Range x (r_to r).

(** strconv.ParseUint(s, 10, w) (range32.go:48, 52): non-empty, decimal digits only, below 2^w. *)
Definition digit (a : ascii) : option N :=
  let n := N_of_ascii a in
  if (48 <=? n) && (n <=? 57) then Some (n - 48) else None.
Fixpoint parse_digits (s : string) (acc : N) : option N :=
  match s with
  | String.EmptyString => Some acc
  | String.String a s' => match digit a with
                   | Some d => parse_digits s' (acc * 10 + d)
                   | None => None
                   end
  end.
Definition parse_uint (w : N) (s : string) : option N :=
  match s with
  | String.EmptyString => None
  | _ => match parse_digits s 0 with
         | Some v => if v <? 2 ^ w then Some v else None
         | None => None
         end
  end.

(** strings.IndexByte(s, '-') and the two slices, range32.go:43-47. *)
Fixpoint split_hyphen (s : string) : option (string * string) :=
  match s with
  | String.EmptyString => None
  | String.String a s' =>
      if Ascii.eqb a "-"%char then Some (String.EmptyString, s')
      else match split_hyphen s' with
           | Some (x, y) => Some (String.String a x, y)
           | None => None
           end
  end.

(** range32.go:41-60 [ParseRange]. *)
Definition parse_range (c : idcfg) (s : string) : res range :=
  match split_hyphen s with
  | None => Err ENoHyphen
  | Some (f, t) =>
      match parse_uint (id_w c) f with
      | None => Err EBadFrom
      | Some a =>
          match parse_uint (id_w c) t with
          | None => Err EBadTo
          | Some b => Ok (Range (MyId (uwrap (id_w c) a) (id_w c)) (MyId (uwrap (id_w c) b) (id_w c)))
          end
      end
  end.

(** range32.go:62-64 [String]; %d of a uint64. *)
Definition dec (n : N) : string := DecimalString.NilEmpty.string_of_uint (N.to_uint n).
Definition range_string (r : range) : string :=
  String.append (dec (i_id (r_from r))) (String.String "-"%char (dec (i_id (r_to r)))).

(** id32.go:57-60 [String] of an id, "%d/%d". *)
Definition id_string (x : id) : string :=
  String.append (dec (i_id x)) (String.String "/"%char (dec (i_len x))).

(** range32.go:66-69 [IsValid]. *)
Definition is_valid (r : range) : bool :=
  (i_len (r_from r) =? i_len (r_to r)) && negb (i_id (r_to r) <? i_id (r_from r)).

(** range32.go:75-80 [Less]. *)
Definition range_less (r o : range) : bool :=
  match id_compare (r_from r) (r_from o) with
  | Lt => true
  | Gt => false
  | Eq => id_less (r_to o) (r_to r)
  end.

(** range32.go:94-124. *)
Definition entirely_before (r o : range) : bool := id_less (r_to r) (r_from o).
Definition covered_by (r o : range) : bool :=
  less_or_eq (r_from o) (r_from r) && less_or_eq (r_to r) (r_to o).
Definition in_middle_of (r o : range) : bool :=
  id_less (r_from o) (r_from r) && id_less (r_to r) (r_to o).
Definition overlaps_start_of (r o : range) : bool :=
  less_or_eq (r_from r) (r_from o) && id_less (r_to r) (r_to o).
Definition overlaps_end_of (r o : range) : bool :=
  id_less (r_from o) (r_from r) && less_or_eq (r_to o) (r_to r).

(** myuint32.go:41-51 [bitsSetFrom], [bitsClearedFrom]. *)
Definition bits_set_from (c : idcfg) (u bit : N) : res N :=
  do m <- mask6 c bit; Ok (N.lor u (unot (id_w c) m)).
Definition bits_cleared_from (c : idcfg) (u bit : N) : res N :=
  do m <- mask6 c bit; Ok (N.land u m).

(** range32.go:128-130 [u32CommonMask]. *)
Definition common_mask (c : idcfg) (a b : N) : N := lz (id_w c) (N.lxor a b).

(** range32.go:143-162 [compareIDs]. *)
Definition compare_ids (c : idcfg) (a b : N) : res (N * bool) :=
  let common := common_mask c a b in
  if common =? id_w c then Ok (common, true)
  else
    do m <- mask6 c common;
    Ok (common, (N.lxor a (N.land a m) =? 0) && (N.lor b m =? unot (id_w c) 0)).

(** range32.go:132-141 [appendRangeIDs]; the appended ids instead of the grown
    slice.  Fuel exhaustion is [Panic]. *)
Fixpoint append_range_ids (c : idcfg) (fuel : nat) (a b : N) : res (list id) :=
  match fuel with
  | O => Panic
  | S fuel' =>
      do x <- compare_ids c a b;
      if snd x then Ok [MyId a (fst x)]
      else
        do a' <- bits_set_from c a (fst x + 1);
        do l1 <- append_range_ids c fuel' a a';
        do b' <- bits_cleared_from c b (fst x + 1);
        do l2 <- append_range_ids c fuel' b' b;
        Ok (l1 ++ l2)
  end.

(** range32.go:82-92 [IDs], [AppendIDs], [makeID]. *)
Definition range_ids (c : idcfg) (r : range) : res (list id) :=
  append_range_ids c (S (N.to_nat (id_w c))) (i_id (r_from r)) (i_id (r_to r)).

(** range32.go:231-242 [LastID]: the loop over the bits b = length .. w-1, [n]
    iterations left; bit b of the big-endian byte array is bit w-1-b of the
    number. *)
Fixpoint last_loop (w : N) (n : nat) (b v : N) : N :=
  match n with
  | O => v
  | S n' => last_loop w n' (b + 1) (N.lor v (N.shiftl 1 (w - 1 - b)))
  end.
Definition last_id (c : idcfg) (x : id) : id :=
  MyId (last_loop (id_w c) (N.to_nat (id_w c - i_len x)) (i_len x) (i_id x)) (id_w c).

(** range32.go:223-229 [RangeOfID]; None is the zero range r32{}. *)
Definition range_of_id (c : idcfg) (x : id) : res (option range) :=
  do m <- id_masked c x;
  match m with
  | None => Ok None
  | Some y => Ok (Some (range_from c (i_id y) (i_id (last_id c y))))
  end.

(** range32.go:71-73 [IsZero]: true of r32{} only, whose bounds are nil; no other
    range has nil bounds. *)
Definition range_is_zero (r : option range) : bool := match r with None => true | Some _ => false end.
