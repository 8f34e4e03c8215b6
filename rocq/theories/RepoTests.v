(** The repository's own unit tests, run in the model.

    Every case of the eight [_test.go] files of /repo is executed by the model's functions and
    its results compared with what the test asserts.  These are tests of the model (evidence
    that it describes the code), not properties: they have no entry in MANIFEST.json.  The
    tests range over Go maps, whose order is not fixed, so the cases that claim several ids
    are run in both orders.  All agree with the assertions, but for tree64's [TestClaim]: see
    [tree64_TestClaim] below. *)

From Coq Require Import String.
From Verif Require Import IdxTableModel IPTableModel TableNModel IdModel TreeModel GTreeModel.
Local Open Scope N_scope.
Local Open Scope list_scope.

(** ** pkg/idxtable/table_test.go *)

(** table_test.go [TestNewTable]. *)
Example idx_TestNewTable : snd (run (new_table (T:=N) 1000) [OSize]) = [RInt 0].
Proof. vm_compute. reflexivity. Qed.

(** table_test.go [TestClaim]: 10 and 11 succeed, 1000 is refused. *)
Example idx_TestClaim :
  snd (run (new_table 1000)
        [OClaim 10 1; OClaim 11 2; OClaim 1000 3; OHas 10; OHas 11; OHas 1000; OSize])
  = [RUnit (Ok tt); RUnit (Ok tt); RUnit (Err EIdTooBig); RBool true; RBool true; RBool false;
     RInt 2] /\
  snd (run (new_table 1000)
        [OClaim 11 2; OClaim 10 1; OClaim 1000 3; OHas 10; OHas 11; OHas 1000; OSize])
  = [RUnit (Ok tt); RUnit (Ok tt); RUnit (Err EIdTooBig); RBool true; RBool true; RBool false;
     RInt 2].
Proof. vm_compute. split; reflexivity. Qed.

(** table_test.go [TestRelease]: released ids are gone, releasing unclaimed ids succeeds. *)
Example idx_TestRelease :
  snd (run (new_table 1000)
        [OClaim 10 1; OClaim 11 2; ORelease 10; ORelease 11; ORelease 20; ORelease 21;
         OGet 10; OGet 11; OHas 10; OHas 11; OSize])
  = [RUnit (Ok tt); RUnit (Ok tt); RUnit (Ok tt); RUnit (Ok tt); RUnit (Ok tt); RUnit (Ok tt);
     REntry (Err ENoEntry); REntry (Err ENoEntry); RBool false; RBool false; RInt 0].
Proof. vm_compute. reflexivity. Qed.

(** table_test.go [TestIterate]: the claimed ids in order, whatever the order of the claims. *)
Example idx_TestIterate :
  snd (run (new_table 1000) [OClaim 0 1; OClaim 1 2; OClaim 999 3; OIterate])
  = [RUnit (Ok tt); RUnit (Ok tt); RUnit (Ok tt); RIds (Ok [0; 1; 999])] /\
  snd (run (new_table 1000) [OClaim 999 3; OClaim 1 2; OClaim 0 1; OIterate])
  = [RUnit (Ok tt); RUnit (Ok tt); RUnit (Ok tt); RIds (Ok [0; 1; 999])] /\
  snd (run (new_table (T:=N) 1000) [OIterate]) = [RIds (Ok [])].
Proof. vm_compute. repeat split; reflexivity. Qed.

(** table_test.go [TestClaimRange]. *)
Example idx_TestClaimRange :
  snd (run (new_table 10) [OClaimRange 5 5 1; OSize]) = [RUnit (Ok tt); RInt 5] /\
  snd (run (new_table 10) [OClaimRange 5 6 1]) = [RUnit (Err EEndTooBig)] /\
  snd (run (new_table 10) [OClaim 0 1; OClaim 1 2; OClaimRange 0 5 1])
  = [RUnit (Ok tt); RUnit (Ok tt); RUnit (Err EInUse)].
Proof. vm_compute. repeat split; reflexivity. Qed.

(** table_test.go [TestClaimSize]. *)
Example idx_TestClaimSize :
  match snd (run (new_table 1000) [OClaimSize 1000 1; OSize]) with
  | [REntries (Ok es); RInt n] => (N.of_nat (length es), N.of_nat n)
  | _ => (0, 0)
  end = (1000, 1000) /\
  snd (run (new_table 10) [OClaimSize 11 1]) = [REntries (Err ESizeTooBig)].
Proof. vm_compute. split; reflexivity. Qed.

(** ** pkg/iptable/tptable_test.go *)

(** tptable_test.go [TestClaim]: the range 10.0.0.10-10.0.0.20. *)
Definition test_ip (x : N) : addr := Addr K4 (v4_base + (10 * 2 ^ 24 + x)) 0.
Example ip_TestClaim :
  snd (ip_run Some (ip_new (test_ip 10) (test_ip 20))
        [IClaim (test_ip 10) 1; IClaim (test_ip 11) 2; IClaim (test_ip 21) 3;
         IHas (test_ip 10); IHas (test_ip 11); IHas (test_ip 21); ISize; IFindFree])
  = [IRUnit (Ok tt); IRUnit (Ok tt); IRUnit (Err EOutsideRange); IRBool true; IRBool true;
     IRBool false; IRInt 2; IRAddr (Ok (test_ip 12))].
Proof. vm_compute. reflexivity. Qed.

(** ** pkg/table/tableN/tableN_test.go *)

(** [id.ParseRange] of the case's range, [New] of its bounds, then the two claims, the refused
    claim, [Has] of all three, [Size] and [FindFree]. *)
Definition table_test (c : tn_cfg) (i : idcfg) (s : string) (x y z : N) : res (list (tout N)) :=
  do r <- parse_range i s;
  Ok (snd (tn_run (tn_new c (i_id (r_from r)) (i_id (r_to r)))
            [TClaim x 1; TClaim y 2; TClaim z 3; THas x; THas y; THas z; TSize; TFindFree])).
Definition table_test_ok (free : N) : res (list (tout N)) :=
  Ok [TRUnit (Ok tt); TRUnit (Ok tt); TRUnit (Err EOutsideRange); TRBool true; TRBool true;
      TRBool false; TRInt 2; TRId (Ok free)].

Example table16_TestClaim :
  table_test cfg_table16 cfg_id16 "100-199" 100 199 500 = table_test_ok 101 /\
  table_test cfg_table16 cfg_id16 "100-199" 199 100 500 = table_test_ok 101.
Proof. vm_compute. split; reflexivity. Qed.
Example table32_TestClaim :
  table_test cfg_table32 cfg_id32 "100-199" 100 199 500 = table_test_ok 101 /\
  table_test cfg_table32 cfg_id32 "4294967000-4294967295" 4294967000 4294967295 4294967296
  = table_test_ok 4294967001.
Proof. vm_compute. split; reflexivity. Qed.
Example table64_TestClaim :
  table_test cfg_table64 cfg_id64 "100-199" 100 199 500 = table_test_ok 101 /\
  table_test cfg_table64 cfg_id64 "18446744073709551000-18446744073709551614"
    18446744073709551001 18446744073709551010 18446744073709551615
  = table_test_ok 18446744073709551000.
Proof. vm_compute. split; reflexivity. Qed.

(** ** pkg/tree/treeN/treeN_test.go *)

(** [New] of the given length, [ClaimID] of two ids and of a third that is too big; what the
    claims return, what [Get] finds of the three and how many entries [GetAll] lists. *)
Definition tree_test (c : gcfg) (w len x y z : N)
    : res (list (gres N) * list (res N) * nat) :=
  do g <- g_new c len;
  do r <- g_run (fun _ => EmptyString) c g
            [GClaimID (MyId x w) 1; GClaimID (MyId y w) 2; GClaimID (MyId z w) 3];
  do es <- g_get_all (fst r);
  Ok (snd r, map (fun v => do e <- g_get (fst r) (MyId v w); Ok (te_id e)) [x; y; z], length es).

Example tree16_TestClaim :
  tree_test cfg_tree16 16 12 10 11 5000
  = Ok ([GDone; GDone; GErr EMaxId], [Ok 10; Ok 11; Err ENotFound], 2%nat) /\
  tree_test cfg_tree16 16 12 11 10 5000
  = Ok ([GDone; GDone; GErr EMaxId], [Ok 11; Ok 10; Err ENotFound], 2%nat).
Proof. vm_compute. split; reflexivity. Qed.
Example tree32_TestClaim :
  tree_test cfg_tree32 32 30 10 11 2000000000
  = Ok ([GDone; GDone; GErr EMaxId], [Ok 10; Ok 11; Err ENotFound], 2%nat) /\
  tree_test cfg_tree32 32 30 11 10 2000000000
  = Ok ([GDone; GDone; GErr EMaxId], [Ok 11; Ok 10; Err ENotFound], 2%nat).
Proof. vm_compute. split; reflexivity. Qed.

(** tree64_test.go [TestClaim] asserts that [Get] finds both claimed ids.  In the model it
    finds only the one claimed last, in either order: tree.go:85,121 shift the node index of
    the key by the 64 bits of the tree, which is 0 in Go, so every node keeps its value under
    one key (C48_refuted).  By the model this test of the repository fails. *)
Example tree64_TestClaim :
  tree_test cfg_tree64 64 32 10 11 20000000000
  = Ok ([GDone; GDone; GErr EMaxId], [Err ENotFound; Ok 11; Err ENotFound], 2%nat) /\
  tree_test cfg_tree64 64 32 11 10 20000000000
  = Ok ([GDone; GDone; GErr EMaxId], [Err ENotFound; Ok 10; Err ENotFound], 2%nat).
Proof. vm_compute. split; reflexivity. Qed.

(** [ParseRange], then [ClaimID] of each of its [IDs]: what the claims return. *)
Definition range_claims (i : idcfg) (s : string) : res (list (gop N)) :=
  do r <- parse_range i s; do xs <- range_ids i r; Ok (map (fun x => GClaimID x 0) xs).

(** tree16_test.go [TestRandomClaim]: no claim of "10-0" and "16383-65535" fails.  The first,
    reversed, range is not refused: it yields three blocks, 10-11, 12-15 and 0 (C25). *)
Example tree16_TestRandomClaim :
  (do a <- range_claims cfg_id16 "10-0"; do b <- range_claims cfg_id16 "16383-65535";
   do g <- g_new cfg_tree16 16; do r <- g_run (fun _ => EmptyString) cfg_tree16 g (a ++ b);
   Ok (a, snd r))
  = Ok ([GClaimID (MyId 10 15) 0; GClaimID (MyId 12 14) 0; GClaimID (MyId 0 16) 0],
        [GDone; GDone; GDone; GDone; GDone; GDone]).
Proof. vm_compute. reflexivity. Qed.

(** tree32_test.go [TestASClaim]: "65000-65100" and then 65535. *)
Example tree32_TestASClaim :
  exists n,
  (do a <- range_claims cfg_id32 "65000-65100";
   do g <- g_new cfg_tree32 32;
   do r <- g_run (fun _ => EmptyString) cfg_tree32 g (a ++ [GClaimID (MyId 65535 32) 0]);
   Ok (snd r)) = Ok (repeat GDone n).
Proof. exists 7%nat. vm_compute. reflexivity. Qed.
