(** Model of test/main.go: the loops of main over the trees, handleId, and main
    itself.  What is printed is a list of lines; their text is left to fmt.  A
    panic of the program is Panic. *)
From Verif Require Export GTreeModel LabelModel.
From Coq Require Strings.String.
Import Coq.Strings.String.StringSyntax.
Local Open Scope string_scope.
Local Open Scope N_scope.

(** The lines main prints (main.go:151; 162; 174, 189; 186; 223, 225; 232). *)
Inductive line : Type :=
| LLast (x : id)
| LClaimed (v : N)
| LEntry (x : id) (l : labels)
| LFailed (v : N) (e : err)
| LErr (e : err)
| LParents (es : list (option (tentry labels))).

(** The trees of main have labels.Set as labels; a nil map reads as an empty one. *)
Notation mtree := (gtree labels).
(** main.go:159, 170, 184: map[string]string{"id": strconv.Itoa(id)}. *)
Definition id_label (v : N) : labels := {[ "id" := dec v ]}.
(** main.go:193-195, 212: map[string]string{"range": "test"}. *)
Definition range_label : labels := {[ "range" := "test" ]}.
(** main.go:238-248 [GetLabelSelector] (and 192-202): a selector with one requirement
    key = value for each entry of the map; Matches is true of the label sets that meet
    all.  [valid] is whether labels.NewRequirement of k8s.io/apimachinery accepts the
    key and value; if one is refused an error is returned, here None. *)
Definition label_selector (valid : string -> string -> bool) (l : labels) : option (labels -> bool) :=
  if forallb (fun kv => valid kv.1 kv.2) (map_to_list l)
  then Some (fun m => forallb (fun kv => bool_decide (m !! kv.1 = Some kv.2)) (map_to_list l))
  else None.

(** if err != nil { panic(err) } (main.go:153-156, 159-161, 165-168, 171-173,
    177-180, 198-200, 204-206, 208-211, 228-230). *)
Definition must {A} (r : res A) : res A := match r with Ok a => Ok a | _ => Panic end.

(** main.go:158-163: [for id := 0; id <= 4095; id++] with ClaimID; k is the number
    of turns left. *)
Fixpoint claim_loop (g : mtree) (k : nat) (v : N) : res (mtree * list line) :=
  match k with
  | O => Ok (g, [])
  | S k' =>
      do g' <- must (g_claim_id cfg_tree16 g (MyId (uwrap 16 v) 16) (id_label v));
      do r <- claim_loop g' k' (v + 1);
      Ok (fst r, LClaimed v :: snd r)
  end.

(** main.go:169-175: the loop with ClaimFree on the tree16. *)
Fixpoint claim_free_loop (g : mtree) (k : nat) (v : N) : res (mtree * list line) :=
  match k with
  | O => Ok (g, [])
  | S k' =>
      do a <- must (g_claim_free cfg_tree16 g (id_label v));
      do r <- claim_free_loop (fst a) k' (v + 1);
      Ok (fst r, LEntry (eid (snd a)) (te_labels (snd a)) :: snd r)
  end.

(** main.go:183-190: the loop with ClaimFree on the tree32, which goes on after an
    error. *)
Fixpoint try_loop (g : mtree) (k : nat) (v : N) : res (mtree * list line) :=
  match k with
  | O => Ok (g, [])
  | S k' =>
      match g_claim_free cfg_tree32 g (id_label v) with
      | Ok a =>
          do r <- try_loop (fst a) k' (v + 1);
          Ok (fst r, LEntry (eid (snd a)) (te_labels (snd a)) :: snd r)
      | Err e =>
          do r <- try_loop g k' (v + 1);
          Ok (fst r, LFailed v e :: snd r)
      | Panic => Panic
      end
  end.

(** main.go:219-236 [handleId], on a tree16 as main calls it; the labels nil of line
    224 read as an empty map. *)
Definition handle_id (g : mtree) (v : N) : res (mtree * list line) :=
  let x := MyId v 16 in
  match g_get g x with
  | Ok _ => Panic
  | Panic => Panic
  | Err e =>
      do a <- match g_claim_id cfg_tree16 g x ∅ with
              | Ok g' => Ok (g', [LErr e])
              | Err e' => Ok (g, [LErr e; LErr e'])
              | Panic => Panic
              end;
      do _ <- must (g_get (fst a) x);
      do es <- g_parents cfg_tree16 (fst a) x;
      Ok (fst a, snd a ++ [LParents es])
  end.

(** main.go:29-217 [main] with k turns of each loop; the result of ClaimRange (212)
    is not looked at. *)
Definition main_turns (k : nat) (valid : string -> string -> bool) : res (list line) :=
  do g <- must (g_new cfg_tree16 12);
  do a <- claim_loop g k 0;
  do g <- must (g_new cfg_tree16 12);
  do b <- claim_free_loop g k 0;
  do g <- must (g_new cfg_tree32 12);
  do c <- try_loop g k 0;
  do _ <- match label_selector valid range_label with
          | Some sel => must (g_release_by_label label_string cfg_tree32 (fst c) sel)
          | None => Panic
          end;
  do g <- must (g_new cfg_tree16 12);
  do g <- match g_claim_range cfg_tree16 g "1000-2000" range_label with Ok g' => Ok g' | Err _ => Ok g | Panic => Panic end;
  do d <- handle_id g 1000;
  do e <- handle_id (fst d) 100;
  Ok (LLast (last_id cfg_id16 (MyId 0 (16 - 12))) :: snd a ++ snd b ++ snd c ++ snd d ++ snd e).
(** main.go:158, 169, 183: [for id := 0; id <= 4095; id++]. *)
Definition main (valid : string -> string -> bool) : res (list line) := main_turns (N.to_nat 4096) valid.
