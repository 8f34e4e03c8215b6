(*@ C20_compare_is_a_total_order *)
Example C20_example :
  id_compare (MyId 9 8) (MyId 3 16) = Lt /\ id_compare (MyId 3 16) (MyId 9 16) = Lt /\
  id_compare (MyId 9 16) (MyId 9 16) = Eq /\ id_less (MyId 3 16) (MyId 9 8) = false.
Proof. repeat split; reflexivity. Qed.
(*@ C20_range_less_is_a_strict_total_order *)
Example C20_range_example :
  range_less (range_from cfg_id32 3 9) (range_from cfg_id32 4 5) = true /\
  range_less (range_from cfg_id32 3 9) (range_from cfg_id32 3 5) = true /\
  range_less (range_from cfg_id32 3 5) (range_from cfg_id32 3 9) = false.
Proof. repeat split; reflexivity. Qed.
(*@ C21_next_and_prev_step_by_one_partial *)
Example C21_example :
  cfg_id32 ∈ id_packages_16_32 /\ id_ok cfg_id32 (MyId 4095 12) /\
  id_next cfg_id32 (MyId 4095 12) = MyId 4096 12 /\ id_prev cfg_id16 (MyId 0x8000 16) = MyId 0x7fff 16.
Proof. split; [unfold id_packages_16_32; set_solver|]. repeat split; reflexivity. Qed.
(*@ C21_next_of_largest_refuted *)
Example C21_largest_example : id_next cfg_id16 (MyId 65535 16) = MyId 1 16.
Proof. reflexivity. Qed.
(*@ C21_id64_partial *)
Example C21_id64_example :
  id_ok cfg_id64 (MyId (2 ^ 40) 64) /\ id_next cfg_id64 (MyId (2 ^ 40) 64) = MyId (2 ^ 40 + 1) 64 /\
  id_prev cfg_id64 (MyId 77 64) = MyId 76 64.
Proof. repeat split; reflexivity. Qed.
(*@ C22_mask_and_prefix_range_partial *)
Example C22_example :
  id_mask cfg_id16 (MyId 0x1234 16) 6 = Ok (MyId 0x1000 6) /\
  range_of_id cfg_id32 (MyId 0x12345678 20) = Ok (Some (range_from cfg_id32 0x12345000 0x12345fff)).
Proof. split; reflexivity. Qed.
(*@ C22_id64_partial *)
Example C22_id64_example :
  range_of_id cfg_id64 (MyId 0x123456789abcdef0 20) =
  Ok (Some (range_from cfg_id64 0x1234500000000000 0x12345fffffffffff)).
Proof. reflexivity. Qed.
(*@ C22_id64_refuted *)
Example C22_id64_refuted_example :
  id_mask cfg_id64 (MyId (2 ^ 40 + 7) 64) 0 = Ok (MyId (2 ^ 40) 0) /\
  range_of_id cfg_id64 (MyId 7 64) = Ok None.
Proof. split; reflexivity. Qed.
(*@ C23_overlaps_decides_intersection *)
Example C23_example :
  overlaps cfg_id16 (MyId 0x1200 8) (MyId 0x1234 16) = Ok true /\
  overlaps cfg_id16 (MyId 0x1200 8) (MyId 0x1334 16) = Ok false /\
  overlaps cfg_id64 (MyId (2 ^ 60) 4) (MyId 0 0) = Ok true.
Proof. repeat split; reflexivity. Qed.
(*@ C24_ids_decomposes_range_partial *)
Example C24_example :
  range_ids cfg_id16 (range_from cfg_id16 3 20) =
  Ok [MyId 3 16; MyId 4 14; MyId 8 13; MyId 16 14; MyId 20 16].
Proof. reflexivity. Qed.
(*@ C24_id64_exactly_outside_bad_ranges_partial *)
Example C24_id64_example :
  ~ id64_bad_range 3 (2 ^ 63 + 4) /\ id64_bad_range (2 ^ 32) (2 ^ 64 - 1) /\
  exists l, range_ids cfg_id64 (range_from cfg_id64 3 (2 ^ 63 + 4)) = Ok l /\ length l = 64%nat.
Proof.
  split; [unfold id64_bad_range; vm_compute; intuition congruence|].
  split; [unfold id64_bad_range; vm_compute; intuition congruence|].
  eexists. split; [vm_compute; reflexivity|reflexivity].
Qed.
(*@ C25_reversed_range_is_invalid_partial *)
Example C25_valid_example : is_valid (range_from cfg_id64 5 4) = false /\ is_valid (range_from cfg_id64 4 5) = true.
Proof. split; reflexivity. Qed.
(*@ C25_reversed_ids_characterised *)
Example C25_example :
  half_size 20 9 = 16 /\
  range_ids cfg_id16 (range_from cfg_id16 20 9) =
  Ok [MyId 20 14; MyId 24 13; MyId 0 13; MyId 8 15].
Proof. split; reflexivity. Qed.
(*@ C25_id64_characterised *)
Example C25_id64_example :
  range_ids cfg_id64 (range_from cfg_id64 (2 ^ 63) (2 ^ 32 - 1)) = Ok [MyId (2 ^ 63) 0] /\
  range_ids cfg_id64 (range_from cfg_id64 (2 ^ 63) (2 ^ 32 - 2)) =
    Ok (MyId (2 ^ 63) 1 :: map (fun k => MyId (2 ^ 32 - 2 ^ (32 - N.of_nat k)) (33 + N.of_nat k)) (seq 0 31) ++ [MyId (2 ^ 32 - 2) 64]).
Proof. split; vm_compute; reflexivity. Qed.
(*@ C25_reversed_ids_refuted *)
Example C25_id64_refuted_example :
  range_ids cfg_id64 (range_from cfg_id64 2 1) = Ok [MyId 2 63; MyId 0 63].
Proof. reflexivity. Qed.
(*@ C26_parse_range *)
Import String.StringSyntax.
Local Open Scope string_scope.
Example C26_example :
  parse_range cfg_id16 "10-020" = Ok (range_from cfg_id16 10 20) /\
  parse_range cfg_id16 "10-65536" = Err EBadTo /\
  parse_range cfg_id16 "10-2-3" = Err EBadTo /\
  parse_range cfg_id16 "+1-2" = Err EBadFrom /\
  parse_range cfg_id16 "12" = Err ENoHyphen.
Proof. repeat split; reflexivity. Qed.
(*@ C26_parse_range_of_string *)
Example C26_string_example : range_string (range_from cfg_id64 0 (2 ^ 64 - 1)) = "0-18446744073709551615".
Proof. reflexivity. Qed.
(*@ C68_shift_left *)
Example C68_shift_example :
  cfg_id16 ∈ id_packages /\ id_ok cfg_id16 (MyId 40960 5) /\ shift_left cfg_id16 (MyId 40960 5) 2 = MyId 32768 3.
Proof. split; [left|]. split; [vm_compute; split; reflexivity|reflexivity]. Qed.
(*@ C68_shift_past_the_end *)
Example C68_past_example : shift_left cfg_id32 (MyId (2 ^ 31) 1) 2 = MyId 0 255.
Proof. reflexivity. Qed.
(*@ C68_is_left_bit_set *)
Example C68_left_example :
  is_left_bit_set cfg_id32 (MyId (2 ^ 31 + 5) 32) = true /\ is_left_bit_set cfg_id32 (MyId (2 ^ 31 - 1) 32) = false /\
  is_left_bit_set_fn cfg_id32 (2 ^ 32 + 1) = false.
Proof. repeat split. Qed.
(*@ C68_matches *)
Example C68_matches_example : matches cfg_id64 (MyId (2 ^ 63 + 2 ^ 60) 64) (2 ^ 63) = 3 /\ matches cfg_id64 (MyId 7 64) 7 = 64.
Proof. split; reflexivity. Qed.
(*@ C69_set_relations_partial *)
Example C69_relations_example :
  valid_range 16 (range_from cfg_id16 3 5) /\ valid_range 16 (range_from cfg_id16 3 9) /\
  covered_by (range_from cfg_id16 3 5) (range_from cfg_id16 3 9) = true /\
  in_middle_of (range_from cfg_id16 3 5) (range_from cfg_id16 3 9) = false /\
  in_middle_of (range_from cfg_id16 4 5) (range_from cfg_id16 3 9) = true /\
  entirely_before (range_from cfg_id16 3 5) (range_from cfg_id16 6 9) = true.
Proof. unfold valid_range. vm_compute. repeat split; discriminate. Qed.
(*@ C69_overlaps_partial *)
Example C69_overlaps_example :
  has_value (range_from cfg_id16 3 5) 5 /\ has_value (range_from cfg_id16 5 9) 5 /\
  overlaps_start_of (range_from cfg_id16 3 5) (range_from cfg_id16 5 9) = true /\
  overlaps_start_of (range_from cfg_id16 3 9) (range_from cfg_id16 5 9) = false /\
  overlaps_end_of (range_from cfg_id16 6 9) (range_from cfg_id16 5 9) = true.
Proof. unfold has_value. vm_compute. repeat split; discriminate. Qed.
(*@ C69_disjoint_ranges_refuted *)
Example C69_disjoint_example :
  overlaps_start_of (range_from cfg_id16 1 2) (range_from cfg_id16 5 9) = true.
Proof. reflexivity. Qed.
(*@ C69_is_valid *)
Example C69_valid_example : is_valid (range_from cfg_id16 7 7) = true /\ is_valid (Range (MyId 1 16) (MyId 2 15)) = false.
Proof. split; reflexivity. Qed.
(*@ C70_strings_identify *)
Example C70_example : id_string (MyId 10 16) = "10/16".
Proof. reflexivity. Qed.

(*@ C70_strings_text *)
Example C70_text_example :
  plain_decimal "10" 10 /\ plain_decimal "0" 0 /\ ~ plain_decimal "010" 10 /\
  range_string (range_from cfg_id16 0 10) = "0-10".
Proof.
  assert (D : forall a, N_of_ascii a = 48 \/ N_of_ascii a = 49 -> is_digit a) by (unfold is_digit; lia).
  split; [|split; [|split]].
  - split; [done|]. split; [split; [|split; [|done]]; apply D; vm_compute; tauto|]. split; [reflexivity|]. discriminate.
  - split; [done|]. split; [split; [|done]; apply D; vm_compute; tauto|]. split; [reflexivity|]. congruence.
  - intros (_ & _ & _ & H). by specialize (H _ eq_refl).
  - reflexivity.
Qed.
(*@ C21_id64_prev_exact *)
Example C21_id64_prev_exact_example :
  id_prev cfg_id64 (MyId (2 ^ 40 + 7) 64) = MyId 6 64 /\ id_prev cfg_id64 (MyId (3 * 2 ^ 32) 64) = MyId (2 ^ 32 - 2) 64.
Proof. split; reflexivity. Qed.
