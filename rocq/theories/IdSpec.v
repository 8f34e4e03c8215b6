(** Vocabulary for the statements about ids, prefixes and ranges of
    pkg/tree/id16, id32, id64. *)
From Verif Require Export IdModel.

(** The three packages. *)
Definition id_packages : list idcfg := [cfg_id16; cfg_id32; cfg_id64].
(** The two packages without the constants that are wrong in id64. *)
Definition id_packages_16_32 : list idcfg := [cfg_id16; cfg_id32].

(** [x] is an id value of the package: its number fits the width, its length
    is a uint8. *)
Definition id_ok (c : idcfg) (x : id) : Prop := i_id x < 2 ^ id_w c /\ i_len x < 256.

(** The value [v] has the same leading [i_len x] bits (of [w]) as [x]: [v]
    belongs to the prefix [x]. *)
Definition covers (w : N) (x : id) (v : N) : Prop :=
  v / 2 ^ (w - i_len x) = i_id x / 2 ^ (w - i_len x).

(** No bit set beyond the length. *)
Definition canonical (w : N) (x : id) : Prop :=
  i_len x <= w /\ i_id x < 2 ^ w /\ i_id x mod 2 ^ (w - i_len x) = 0.

(** The union of the prefixes in [l] is the interval [a,b]. *)
Definition union_is (w : N) (l : list id) (a b : N) : Prop :=
  forall v, a <= v <= b <-> exists x, x ∈ l /\ covers w x v.

(** Every value of [x] is below every value of [y]. *)
Definition before (w : N) (x y : id) : Prop :=
  forall u v, covers w x u -> covers w y v -> u < v.

(** [l]: canonical prefixes, ascending and disjoint, with union [a,b], and no
    list of fewer prefixes has that union. *)
Definition is_decomposition (w : N) (l : list id) (a b : N) : Prop :=
  Forall (canonical w) l /\ StronglySorted (before w) l /\ union_is w l a b /\
  (forall l', Forall (fun x => i_len x <= w) l' -> union_is w l' a b -> (length l <= length l')%nat).

(** The range r of RangeOfID(x): bounds of full length, and the values between
    them are those of the prefix. *)
Definition prefix_range (c : idcfg) (x : id) (r : range) : Prop :=
  i_len (r_from r) = id_w c /\ i_len (r_to r) = id_w c /\
  forall v, i_id (r_from r) <= v <= i_id (r_to r) <-> covers (id_w c) x v.

(** id64: right exactly outside these ranges: the bounds are in different halves
    of the id space, the lower bound ends in 32 zero bits, the upper bound in 32
    one bits, and it is not the whole space. *)
Definition id64_bad_range (a b : N) : Prop :=
  a < 2 ^ 63 <= b /\ a mod 2 ^ 32 = 0 /\ b mod 2 ^ 32 = 2 ^ 32 - 1 /\ ~ (a = 0 /\ b = 2 ^ 64 - 1).

(** The half blocks of a and b around the highest bit in which they differ. *)
Definition half_size (a b : N) : N := 2 ^ (N.size (N.lxor a b) - 1).

(** Decimal strings. *)
Definition is_digit (a : ascii) : Prop := (48 <= N_of_ascii a <= 57).
Fixpoint all_digits (s : string) : Prop :=
  match s with String.EmptyString => True | String.String a s' => is_digit a /\ all_digits s' end.
Fixpoint has_no_hyphen (s : string) : Prop :=
  match s with String.EmptyString => True | String.String a s' => a <> "-"%char /\ has_no_hyphen s' end.
(** The number written in decimal: the value of the digits read from the right. *)
Fixpoint decimal_value (s : string) : N :=
  match s with
  | String.EmptyString => 0
  | String.String a s' => (N_of_ascii a - 48) * 10 ^ N.of_nat (String.length s') + decimal_value s'
  end.
(** [s] is [v] in decimal, without leading zeros. *)
Definition plain_decimal (s : string) (v : N) : Prop :=
  s <> String.EmptyString /\ all_digits s /\ decimal_value s = v /\
  (forall rest, s = String.String "0"%char rest -> rest = String.EmptyString).

(** Bit number [k] of [v] from the left, in a word of [w] bits. *)
Definition left_bit (w v k : N) : bool := N.testbit v (w - 1 - k).

(** The values of a range, and a valid range whose bounds have length [n]. *)
Definition has_value (r : range) (v : N) : Prop := i_id (r_from r) <= v <= i_id (r_to r).
Definition valid_range (n : N) (r : range) : Prop :=
  i_len (r_from r) = n /\ i_len (r_to r) = n /\ i_id (r_from r) <= i_id (r_to r).
