(*@ C31_tree_is_a_map_partial *)
Definition T_ops : list (top N) :=
  [TSet (MyId 0x10000000 8) 10; TAdd (MyId 0x10000000 8) 11 None; TSet (MyId 0x14000000 6) 12;
   TSet (MyId 0x1a000000 7) 13; TAdd (MyId 0x10000000 8) 11 (Some N.eqb); TSet (MyId 0 0) 14;
   TDelete (MyId 0x1a000000 7) N.eqb 13; TDelete (MyId 0x10000000 8) N.eqb 10; TSet (MyId 0xffffffff 32) 15].
Example C31_example :
  cfg_id32 ∈ id_packages_16_32 /\ Forall (top_ok cfg_id32) T_ops /\ roomy 32 (∅ : pmap N) T_ops /\
  snd (spec_run 32 (∅ : pmap N) T_ops) =
    [RAdded true 1; RAdded true 2; RAdded true 1; RAdded true 1; RAdded false 2; RAdded true 1;
     RDeleted 1; RDeleted 1; RAdded true 1].
Proof.
  split; [right; left|]. split; [repeat constructor; vm_compute; done|].
  split; [apply (C31_short_runs_are_roomy_pf N cfg_id32); [right; left|vm_compute; discriminate]|].
  vm_compute. done.
Qed.
(*@ C31_short_runs_are_roomy *)
Example C31_short_example : N.of_nat (length T_ops) <= 2 ^ 31 - 2.
Proof. vm_compute. discriminate. Qed.
(*@ C31_tree16_set_delete *)
Definition T_ops16 : list (top N) :=
  [TSet (MyId 0x1234 16) 1; TSet (MyId 0x1200 8) 2; TDelete (MyId 0x1234 16) (fun _ _ => true) 0; TSet (MyId 0x1235 16) 3].
Example C31_tree16_example : Forall (top_ok cfg_id16) T_ops16 /\ Forall set_or_delete T_ops16.
Proof. split; repeat constructor; vm_compute; done. Qed.
(*@ C31_delete_is_filter *)
Example C31_filter_example : delete_list N.eqb 2 [1; 2; 3] = [1; 3] /\ delete_list N.eqb 2 [1; 2; 1] = [1].
Proof. done. Qed.
(*@ C33_values_of_map *)
Example C33_example : exists s rs, t_run 0 cfg_id32 (tree_zero cfg_id32) T_ops = Ok (s, rs) /\
  iter_all 0 s = Ok [[14]; [11]; [12]; [15]].
Proof. do 2 eexists. split; vm_compute; reflexivity. Qed.
(*@ C36_clone_partial *)
Example C36_example : exists s rs, t_run 0 cfg_id32 (tree_zero cfg_id32) T_ops = Ok (s, rs) /\
  t_n s + 1 <= 2 ^ 32 /\ iter_all 0 (clone s) = Ok [[0]; [0]; [0]; [0]].
Proof. do 2 eexists. split; [vm_compute; reflexivity|]. split; [vm_compute; discriminate|vm_compute; reflexivity]. Qed.
(*@ C72_merge_id *)
Example C72_example : merge_id 16 0xabcd 4 0x1234 8 = Ok (0xa120, 12) /\ merge_id 16 0xabcd 12 0x1234 12 = Ok (0xabc1, 24).
Proof. split; vm_compute; reflexivity. Qed.
(*@ C72_merge_id_concatenates *)
Example C72_concat_example : merge_id 16 0xa000 4 0x1234 8 = Ok (0xa120, 12) /\
  prefix 16 (MyId 0xa120 12) = prefix 16 (MyId 0xa000 4) ++ prefix 16 (MyId 0x1234 8).
Proof. split; vm_compute; reflexivity. Qed.
(*@ C72_too_long_panics *)
Example C72_panic_example : merge_id 16 1 17 2 3 = Panic /\ merge_id 16 1 3 2 17 = Panic /\ merge_id 16 0xffff 16 0xffff 16 <> Panic.
Proof. split; [vm_compute; reflexivity|]. split; [vm_compute; reflexivity|]. vm_compute. discriminate. Qed.
