(** Generated by tools/genprops.py from IdFinal.v; only statements,
    each closed by the lemma of the same name with suffix _pf. *)
From Verif Require Import IdSpec IdFinal.

(** Compare orders ids by length, then value; Less is Compare = -1. *)
Theorem C20_compare_is_a_total_order :
  (forall a b : id,
     (id_compare a b = Lt <-> i_len a < i_len b \/ (i_len a = i_len b /\ i_id a < i_id b)) /\
     (id_compare a b = Eq <-> a = b) /\
     (id_compare a b = Gt <-> id_compare b a = Lt) /\
     (id_less a b = true <-> id_compare a b = Lt)) /\
  (forall a b d : id, id_compare a b = Lt -> id_compare b d = Lt -> id_compare a d = Lt).
Proof. exact C20_compare_is_a_total_order_pf. Qed.
Print Assumptions C20_compare_is_a_total_order.

Example C20_example :
  id_compare (MyId 9 8) (MyId 3 16) = Lt /\ id_compare (MyId 3 16) (MyId 9 16) = Lt /\
  id_compare (MyId 9 16) (MyId 9 16) = Eq /\ id_less (MyId 3 16) (MyId 9 8) = false.
Proof. repeat split; reflexivity. Qed.

(** Range.Less: by the lower bounds, ranges with one lower bound by descending
    upper bound; a strict total order. *)
Theorem C20_range_less_is_a_strict_total_order :
  (forall r o : range, range_less r o = true <->
     id_compare (r_from r) (r_from o) = Lt \/
     (r_from r = r_from o /\ id_compare (r_to o) (r_to r) = Lt)) /\
  (forall r : range, range_less r r = false) /\
  (forall r o s : range, range_less r o = true -> range_less o s = true -> range_less r s = true) /\
  (forall r o : range, range_less r o = true \/ r = o \/ range_less o r = true).
Proof. exact C20_range_less_is_a_strict_total_order_pf. Qed.
Print Assumptions C20_range_less_is_a_strict_total_order.

Example C20_range_example :
  range_less (range_from cfg_id32 3 9) (range_from cfg_id32 4 5) = true /\
  range_less (range_from cfg_id32 3 9) (range_from cfg_id32 3 5) = true /\
  range_less (range_from cfg_id32 3 5) (range_from cfg_id32 3 9) = false.
Proof. repeat split; reflexivity. Qed.

(** id16 and id32; the case Next of the largest value is missing, see
    [C21_next_of_largest_refuted]. *)
Theorem C21_next_and_prev_step_by_one_partial :
  forall c x, c ∈ id_packages_16_32 -> id_ok c x ->
    (i_id x < 2 ^ id_w c - 1 ->
       id_next c x = MyId (i_id x + 1) (i_len x) /\ id_prev c (id_next c x) = x) /\
    (0 < i_id x ->
       id_prev c x = MyId (i_id x - 1) (i_len x) /\ id_next c (id_prev c x) = x) /\
    (i_id x = 0 -> id_prev c x = MyId 0 0).
Proof. exact C21_next_and_prev_step_by_one_partial_pf. Qed.
Print Assumptions C21_next_and_prev_step_by_one_partial.

Example C21_example :
  cfg_id32 ∈ id_packages_16_32 /\ id_ok cfg_id32 (MyId 4095 12) /\
  id_next cfg_id32 (MyId 4095 12) = MyId 4096 12 /\ id_prev cfg_id16 (MyId 0x8000 16) = MyId 0x7fff 16.
Proof. split; [unfold id_packages_16_32; set_solver|]. repeat split; reflexivity. Qed.

(** On every width Next of the largest value has value 1 (the carry is added to
    the wrapped sum), not the zero ID. *)
Theorem C21_next_of_largest_refuted :
  forall c x, c ∈ id_packages -> i_id x = 2 ^ id_w c - 1 ->
    id_next c x = MyId 1 (i_len x) /\ id_next c x <> MyId 0 0.
Proof. exact C21_next_of_largest_refuted_pf. Qed.
Print Assumptions C21_next_of_largest_refuted.

Example C21_largest_example : id_next cfg_id16 (MyId 65535 16) = MyId 1 16.
Proof. reflexivity. Qed.

(** id64: Next is right below the largest value; Prev is right exactly for
    values below 2^32. *)
Theorem C21_id64_partial :
  forall x, id_ok cfg_id64 x ->
    (i_id x < 2 ^ 64 - 1 -> id_next cfg_id64 x = MyId (i_id x + 1) (i_len x)) /\
    (i_id x = 0 -> id_prev cfg_id64 x = MyId 0 0) /\
    (0 < i_id x -> (id_prev cfg_id64 x = MyId (i_id x - 1) (i_len x) <-> i_id x < 2 ^ 32)).
Proof. exact C21_id64_partial_pf. Qed.
Print Assumptions C21_id64_partial.

Example C21_id64_example :
  id_ok cfg_id64 (MyId (2 ^ 40) 64) /\ id_next cfg_id64 (MyId (2 ^ 40) 64) = MyId (2 ^ 40 + 1) 64 /\
  id_prev cfg_id64 (MyId 77 64) = MyId 76 64.
Proof. repeat split; reflexivity. Qed.

(** id64: what Prev computes for every value above 0. *)
Theorem C21_id64_prev_exact :
  forall x, id_ok cfg_id64 x -> 0 < i_id x ->
    id_prev cfg_id64 x =
      MyId (if i_id x mod 2 ^ 32 =? 0 then 2 ^ 32 - 2 else i_id x mod 2 ^ 32 - 1) (i_len x).
Proof. exact C21_id64_prev_exact_pf. Qed.
Print Assumptions C21_id64_prev_exact.

Example C21_id64_prev_exact_example :
  id_prev cfg_id64 (MyId (2 ^ 40 + 7) 64) = MyId 6 64 /\ id_prev cfg_id64 (MyId (3 * 2 ^ 32) 64) = MyId (2 ^ 32 - 2) 64.
Proof. split; reflexivity. Qed.

Theorem C21_id64_prev_refuted :
  id_prev cfg_id64 (MyId (2 ^ 40) 64) = MyId (2 ^ 32 - 2) 64.
Proof. exact C21_id64_prev_refuted_pf. Qed.
Print Assumptions C21_id64_prev_refuted.

(** id16 and id32: the property as stated. *)
Theorem C22_mask_and_prefix_range_partial :
  forall c x, c ∈ id_packages_16_32 -> id_ok c x ->
    (forall l, l <= id_w c -> exists y, id_mask c x l = Ok y /\ i_len y = l /\
       forall i, N.testbit (i_id y) i = (id_w c - l <=? i) && N.testbit (i_id x) i) /\
    (forall l, id_w c < l -> id_mask c x l = Err EMaskTooLong) /\
    (i_len x <= id_w c -> exists r, range_of_id c x = Ok (Some r) /\ prefix_range c x r).
Proof. exact C22_mask_and_prefix_range_partial_pf. Qed.
Print Assumptions C22_mask_and_prefix_range_partial.

Example C22_example :
  id_mask cfg_id16 (MyId 0x1234 16) 6 = Ok (MyId 0x1000 6) /\
  range_of_id cfg_id32 (MyId 0x12345678 20) = Ok (Some (range_from cfg_id32 0x12345000 0x12345fff)).
Proof. split; reflexivity. Qed.

(** id64: right for lengths 1 to 32. *)
Theorem C22_id64_partial :
  forall x l, id_ok cfg_id64 x -> 1 <= l <= 32 ->
    (exists y, id_mask cfg_id64 x l = Ok y /\ i_len y = l /\
       forall i, N.testbit (i_id y) i = (64 - l <=? i) && N.testbit (i_id x) i) /\
    (i_len x = l -> exists r, range_of_id cfg_id64 x = Ok (Some r) /\ prefix_range cfg_id64 x r).
Proof. exact C22_id64_partial_pf. Qed.
Print Assumptions C22_id64_partial.

Example C22_id64_example :
  range_of_id cfg_id64 (MyId 0x123456789abcdef0 20) =
  Ok (Some (range_from cfg_id64 0x1234500000000000 0x12345fffffffffff)).
Proof. reflexivity. Qed.

(** id64 on every other length: an id of length 0 keeps its upper 32 bits, and
    every length above 32 is refused, RangeOfID giving the zero range. *)
Theorem C22_id64_refuted :
  (forall x, id_ok cfg_id64 x -> exists y, id_mask cfg_id64 x 0 = Ok y /\
     forall i, N.testbit (i_id y) i = (32 <=? i) && N.testbit (i_id x) i) /\
  (forall x l, 32 < l <= 64 -> id_mask cfg_id64 x l = Err EMaskTooLong) /\
  (forall x, 32 < i_len x <= 64 -> range_of_id cfg_id64 x = Ok None).
Proof. exact C22_id64_refuted_pf. Qed.
Print Assumptions C22_id64_refuted.

Example C22_id64_refuted_example :
  id_mask cfg_id64 (MyId (2 ^ 40 + 7) 64) 0 = Ok (MyId (2 ^ 40) 0) /\
  range_of_id cfg_id64 (MyId 7 64) = Ok None.
Proof. split; reflexivity. Qed.

(** All widths: for lengths up to the width, Overlaps = true iff the prefixes
    have a common value, iff one contains the other. *)
Theorem C23_overlaps_decides_intersection :
  forall c a b, c ∈ id_packages -> id_ok c a -> id_ok c b ->
    i_len a <= id_w c -> i_len b <= id_w c ->
    exists r, overlaps c a b = Ok r /\
      (r = true <-> exists v, covers (id_w c) a v /\ covers (id_w c) b v) /\
      (r = true <-> (forall v, covers (id_w c) a v -> covers (id_w c) b v) \/
                    (forall v, covers (id_w c) b v -> covers (id_w c) a v)).
Proof. exact C23_overlaps_decides_intersection_pf. Qed.
Print Assumptions C23_overlaps_decides_intersection.

Example C23_example :
  overlaps cfg_id16 (MyId 0x1200 8) (MyId 0x1234 16) = Ok true /\
  overlaps cfg_id16 (MyId 0x1200 8) (MyId 0x1334 16) = Ok false /\
  overlaps cfg_id64 (MyId (2 ^ 60) 4) (MyId 0 0) = Ok true.
Proof. repeat split; reflexivity. Qed.

(** id16 and id32: the property as stated. *)
Theorem C24_ids_decomposes_range_partial :
  forall c a b, c ∈ id_packages_16_32 -> a <= b -> b < 2 ^ id_w c ->
    exists l, range_ids c (range_from c a b) = Ok l /\ is_decomposition (id_w c) l a b.
Proof. exact C24_ids_decomposes_range_partial_pf. Qed.
Print Assumptions C24_ids_decomposes_range_partial.

Example C24_example :
  range_ids cfg_id16 (range_from cfg_id16 3 20) =
  Ok [MyId 3 16; MyId 4 14; MyId 8 13; MyId 16 14; MyId 20 16].
Proof. reflexivity. Qed.

Theorem C24_id64_exactly_outside_bad_ranges_partial :
  forall a b, a <= b -> b < 2 ^ 64 ->
    ((exists l, range_ids cfg_id64 (range_from cfg_id64 a b) = Ok l /\ is_decomposition 64 l a b)
     <-> ~ id64_bad_range a b).
Proof. exact C24_id64_exactly_outside_bad_ranges_partial_pf. Qed.
Print Assumptions C24_id64_exactly_outside_bad_ranges_partial.

Example C24_id64_example :
  ~ id64_bad_range 3 (2 ^ 63 + 4) /\ id64_bad_range (2 ^ 32) (2 ^ 64 - 1) /\
  exists l, range_ids cfg_id64 (range_from cfg_id64 3 (2 ^ 63 + 4)) = Ok l /\ length l = 64%nat.
Proof.
  split; [unfold id64_bad_range; vm_compute; intuition congruence|].
  split; [unfold id64_bad_range; vm_compute; intuition congruence|].
  eexists. split; [vm_compute; reflexivity|reflexivity].
Qed.

(** id64: a range of 2^63 values whose IDs() is one prefix of length 0. *)
Theorem C24_id64_refuted :
  id64_bad_range (2 ^ 32) (2 ^ 63 + 2 ^ 32 - 1) /\
  range_ids cfg_id64 (range_from cfg_id64 (2 ^ 32) (2 ^ 63 + 2 ^ 32 - 1)) = Ok [MyId (2 ^ 32) 0].
Proof. exact C24_id64_refuted_pf. Qed.
Print Assumptions C24_id64_refuted.

(** The part that holds, on every width. *)
Theorem C25_reversed_range_is_invalid_partial :
  forall c a b, c ∈ id_packages -> b < a -> is_valid (range_from c a b) = false.
Proof. exact C25_reversed_range_is_invalid_partial_pf. Qed.
Print Assumptions C25_reversed_range_is_invalid_partial.

Example C25_valid_example : is_valid (range_from cfg_id64 5 4) = false /\ is_valid (range_from cfg_id64 4 5) = true.
Proof. split; reflexivity. Qed.

(** What IDs() of a reversed range covers: from [a] to the end of its half block,
    and from the start of the half block of [b] to [b]. *)
Theorem C25_reversed_ids_characterised :
  forall c a b v, c ∈ id_packages_16_32 -> b < a -> a < 2 ^ id_w c ->
    exists l, range_ids c (range_from c a b) = Ok l /\
      ((exists x, x ∈ l /\ covers (id_w c) x v) <->
       (a <= v /\ v / half_size a b = a / half_size a b) \/
       (v <= b /\ v / half_size a b = b / half_size a b)).
Proof. exact C25_reversed_ids_characterised_pf. Qed.
Print Assumptions C25_reversed_ids_characterised.

Example C25_example :
  half_size 20 9 = 16 /\
  range_ids cfg_id16 (range_from cfg_id16 20 9) =
  Ok [MyId 20 14; MyId 24 13; MyId 0 13; MyId 8 15].
Proof. split; reflexivity. Qed.

(** id64: the same, unless the bounds are in different halves, [a] ends in 32 zero
    bits and [b] in 32 one bits: then everything is covered. *)
Theorem C25_id64_characterised :
  forall a b v, b < a -> a < 2 ^ 64 ->
    exists l, range_ids cfg_id64 (range_from cfg_id64 a b) = Ok l /\
      ((exists x, x ∈ l /\ covers 64 x v) <->
       (b < 2 ^ 63 <= a /\ a mod 2 ^ 32 = 0 /\ b mod 2 ^ 32 = 2 ^ 32 - 1 /\ v < 2 ^ 64) \/
       (a <= v /\ v / half_size a b = a / half_size a b) \/
       (v <= b /\ v / half_size a b = b / half_size a b)).
Proof. exact C25_id64_characterised_pf. Qed.
Print Assumptions C25_id64_characterised.

Example C25_id64_example :
  range_ids cfg_id64 (range_from cfg_id64 (2 ^ 63) (2 ^ 32 - 1)) = Ok [MyId (2 ^ 63) 0] /\
  range_ids cfg_id64 (range_from cfg_id64 (2 ^ 63) (2 ^ 32 - 2)) =
    Ok (MyId (2 ^ 63) 1 :: map (fun k => MyId (2 ^ 32 - 2 ^ (32 - N.of_nat k)) (33 + N.of_nat k)) (seq 0 31) ++ [MyId (2 ^ 32 - 2) 64]).
Proof. split; vm_compute; reflexivity. Qed.

(** All widths: every reversed range covers both its bounds. *)
Theorem C25_reversed_ids_refuted :
  forall c a b, c ∈ id_packages -> b < a -> a < 2 ^ id_w c ->
    exists l, range_ids c (range_from c a b) = Ok l /\
      (exists x, x ∈ l /\ covers (id_w c) x a) /\ (exists x, x ∈ l /\ covers (id_w c) x b).
Proof. exact C25_reversed_ids_refuted_pf. Qed.
Print Assumptions C25_reversed_ids_refuted.

Example C25_id64_refuted_example :
  range_ids cfg_id64 (range_from cfg_id64 2 1) = Ok [MyId 2 63; MyId 0 63].
Proof. reflexivity. Qed.

(** All widths.  An unsigned decimal pair: non-empty, digits only, both values
    below 2^width. *)
Theorem C26_parse_range :
  forall c s r, c ∈ id_packages ->
    (parse_range c s = Ok r <->
     exists f t, s = String.append f (String.String "-"%char t) /\
       f <> String.EmptyString /\ t <> String.EmptyString /\ all_digits f /\ all_digits t /\
       decimal_value f < 2 ^ id_w c /\ decimal_value t < 2 ^ id_w c /\
       r = range_from c (decimal_value f) (decimal_value t)) /\
    parse_range c s <> Panic.
Proof. exact C26_parse_range_pf. Qed.
Print Assumptions C26_parse_range.

Import String.StringSyntax.
Local Open Scope string_scope.
Example C26_example :
  parse_range cfg_id16 "10-020" = Ok (range_from cfg_id16 10 20) /\
  parse_range cfg_id16 "10-65536" = Err EBadTo /\
  parse_range cfg_id16 "10-2-3" = Err EBadTo /\
  parse_range cfg_id16 "+1-2" = Err EBadFrom /\
  parse_range cfg_id16 "12" = Err ENoHyphen.
Proof. repeat split; reflexivity. Qed.

(** ParseRange(r.String()) = r for every range of every width. *)
Theorem C26_parse_range_of_string :
  forall c a b, c ∈ id_packages -> a < 2 ^ id_w c -> b < 2 ^ id_w c ->
    parse_range c (range_string (range_from c a b)) = Ok (range_from c a b).
Proof. exact C26_parse_range_of_string_pf. Qed.
Print Assumptions C26_parse_range_of_string.

Example C26_string_example : range_string (range_from cfg_id64 0 (2 ^ 64 - 1)) = "0-18446744073709551615".
Proof. reflexivity. Qed.

(** ShiftLeft(s): bit k of the result is bit k+s of the id, zeros come in from the
    right, and the length is s less (as long as there are s bits). *)
Theorem C68_shift_left :
  forall c x s, c ∈ id_packages -> id_ok c x ->
    (forall k, k < id_w c -> left_bit (id_w c) (i_id (shift_left c x s)) k =
       if k + s <? id_w c then left_bit (id_w c) (i_id x) (k + s) else false) /\
    i_id (shift_left c x s) < 2 ^ id_w c /\
    (s <= i_len x -> i_len (shift_left c x s) = i_len x - s).
Proof. exact C68_shift_left_pf. Qed.
Print Assumptions C68_shift_left.

Example C68_shift_example :
  cfg_id16 ∈ id_packages /\ id_ok cfg_id16 (MyId 40960 5) /\ shift_left cfg_id16 (MyId 40960 5) 2 = MyId 32768 3.
Proof. split; [left|]. split; [vm_compute; split; reflexivity|reflexivity]. Qed.

(** Shifted by more than its length, an id gets a length it cannot have. *)
Theorem C68_shift_past_the_end :
  forall c x s, c ∈ id_packages -> id_ok c x -> i_len x < s < 256 ->
    i_len (shift_left c x s) = 256 - (s - i_len x).
Proof. exact C68_shift_past_the_end_pf. Qed.
Print Assumptions C68_shift_past_the_end.

Example C68_past_example : shift_left cfg_id32 (MyId (2 ^ 31) 1) 2 = MyId 0 255.
Proof. reflexivity. Qed.

(** IsLeftBitSet, the method and the function, read the first bit. *)
Theorem C68_is_left_bit_set :
  forall c, c ∈ id_packages ->
    (forall x, id_ok c x -> is_left_bit_set c x = left_bit (id_w c) (i_id x) 0) /\
    (forall v, is_left_bit_set_fn c v = left_bit (id_w c) v 0).
Proof. exact C68_is_left_bit_set_pf. Qed.
Print Assumptions C68_is_left_bit_set.

Example C68_left_example :
  is_left_bit_set cfg_id32 (MyId (2 ^ 31 + 5) 32) = true /\ is_left_bit_set cfg_id32 (MyId (2 ^ 31 - 1) 32) = false /\
  is_left_bit_set_fn cfg_id32 (2 ^ 32 + 1) = false.
Proof. repeat split. Qed.

(** Matches: the number of bits from the left that agree. *)
Theorem C68_matches :
  forall c x v, c ∈ id_packages -> id_ok c x ->
    matches c x v <= id_w c /\
    (forall k, k < matches c x v -> left_bit (id_w c) v k = left_bit (id_w c) (i_id x) k) /\
    (matches c x v < id_w c -> left_bit (id_w c) v (matches c x v) <> left_bit (id_w c) (i_id x) (matches c x v)) /\
    (matches c x v = id_w c <-> v mod 2 ^ id_w c = i_id x).
Proof. exact C68_matches_pf. Qed.
Print Assumptions C68_matches.

Example C68_matches_example : matches cfg_id64 (MyId (2 ^ 63 + 2 ^ 60) 64) (2 ^ 63) = 3 /\ matches cfg_id64 (MyId 7 64) 7 = 64.
Proof. split; reflexivity. Qed.

(** EntirelyBefore, CoveredBy and InMiddleOf decide the relation of the two sets
    of values that their names say. *)
Theorem C69_set_relations_partial :
  forall n r o, valid_range n r -> valid_range n o ->
    (entirely_before r o = true <-> forall u v, has_value r u -> has_value o v -> u < v) /\
    (covered_by r o = true <-> forall u, has_value r u -> has_value o u) /\
    (in_middle_of r o = true <->
       forall u, has_value r u -> has_value o u /\ u <> i_id (r_from o) /\ u <> i_id (r_to o)).
Proof. exact C69_set_relations_partial_pf. Qed.
Print Assumptions C69_set_relations_partial.

Example C69_relations_example :
  valid_range 16 (range_from cfg_id16 3 5) /\ valid_range 16 (range_from cfg_id16 3 9) /\
  covered_by (range_from cfg_id16 3 5) (range_from cfg_id16 3 9) = true /\
  in_middle_of (range_from cfg_id16 3 5) (range_from cfg_id16 3 9) = false /\
  in_middle_of (range_from cfg_id16 4 5) (range_from cfg_id16 3 9) = true /\
  entirely_before (range_from cfg_id16 3 5) (range_from cfg_id16 6 9) = true.
Proof. unfold valid_range. vm_compute. repeat split; discriminate. Qed.

(** OverlapsStartOf and OverlapsEndOf, for ranges that have a value in common: the
    first (last) value of the other range is in the range, and not all values are. *)
Theorem C69_overlaps_partial :
  forall n r o, valid_range n r -> valid_range n o -> (exists v, has_value r v /\ has_value o v) ->
    (overlaps_start_of r o = true <-> has_value r (i_id (r_from o)) /\ exists v, has_value o v /\ ~ has_value r v) /\
    (overlaps_end_of r o = true <-> has_value r (i_id (r_to o)) /\ exists v, has_value o v /\ ~ has_value r v).
Proof. exact C69_overlaps_partial_pf. Qed.
Print Assumptions C69_overlaps_partial.

Example C69_overlaps_example :
  has_value (range_from cfg_id16 3 5) 5 /\ has_value (range_from cfg_id16 5 9) 5 /\
  overlaps_start_of (range_from cfg_id16 3 5) (range_from cfg_id16 5 9) = true /\
  overlaps_start_of (range_from cfg_id16 3 9) (range_from cfg_id16 5 9) = false /\
  overlaps_end_of (range_from cfg_id16 6 9) (range_from cfg_id16 5 9) = true.
Proof. unfold has_value. vm_compute. repeat split; discriminate. Qed.

(** They are also true of ranges that have no value in common. *)
Theorem C69_disjoint_ranges_refuted :
  forall n r o, valid_range n r -> valid_range n o -> (forall u v, has_value r u -> has_value o v -> u < v) ->
    overlaps_start_of r o = true /\ overlaps_end_of o r = true /\
    (forall v, ~ (has_value r v /\ has_value o v)).
Proof. exact C69_disjoint_ranges_refuted_pf. Qed.
Print Assumptions C69_disjoint_ranges_refuted.

Example C69_disjoint_example :
  overlaps_start_of (range_from cfg_id16 1 2) (range_from cfg_id16 5 9) = true.
Proof. reflexivity. Qed.

(** IsValid: the bounds have the same length and are not reversed. *)
Theorem C69_is_valid :
  forall r, is_valid r = true <-> valid_range (i_len (r_from r)) r.
Proof. exact C69_is_valid_pf. Qed.
Print Assumptions C69_is_valid.

Example C69_valid_example : is_valid (range_from cfg_id16 7 7) = true /\ is_valid (Range (MyId 1 16) (MyId 2 15)) = false.
Proof. split; reflexivity. Qed.

(** Different ids have different strings, and so have different ranges with
    bounds of full length. *)
Theorem C70_strings_identify :
  (forall x y : id, id_string x = id_string y -> x = y) /\
  (forall c a b a' b', range_string (range_from c a b) = range_string (range_from c a' b') ->
     range_from c a b = range_from c a' b').
Proof. exact C70_strings_identify_pf. Qed.
Print Assumptions C70_strings_identify.

Example C70_example : id_string (MyId 10 16) = "10/16".
Proof. reflexivity. Qed.

(** String of an id is its value, a slash and its length, and String of a range
    its two bounds with a hyphen in between; all in decimal without leading zeros. *)
Theorem C70_strings_text :
  (forall x : id, exists v l, plain_decimal v (i_id x) /\ plain_decimal l (i_len x) /\
     id_string x = String.append v (String.String "/"%char l)) /\
  (forall r : range, exists a b, plain_decimal a (i_id (r_from r)) /\ plain_decimal b (i_id (r_to r)) /\
     range_string r = String.append a (String.String "-"%char b)).
Proof. exact C70_strings_text_pf. Qed.
Print Assumptions C70_strings_text.

Example C70_text_example :
  plain_decimal "10" 10 /\ plain_decimal "0" 0 /\ ~ plain_decimal "010" 10 /\
  range_string (range_from cfg_id16 0 10) = "0-10".
Proof.
  assert (D : forall a, N_of_ascii a = 48 \/ N_of_ascii a = 49 -> is_digit a) by (unfold is_digit; lia).
  split; [|split; [|split]].
  - split; [done|]. split; [split; [|split; [|done]]; apply D; vm_compute; tauto|]. split; [reflexivity|]. discriminate.
  - split; [done|]. split; [split; [|done]; apply D; vm_compute; tauto|]. split; [reflexivity|]. congruence.
  - intros (_ & _ & _ & H). by specialize (H _ eq_refl).
  - reflexivity.
Qed.
