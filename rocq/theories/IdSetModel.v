(** Model of mergeRanges (rangeN.go) and idset.go of pkg/tree/id16, id32, id64.
    Line numbers are those of id32. *)
From Verif Require Export IdModel.

(** range32.go:177, the order used by sort.Slice. *)
Definition range_le (a b : range) : Prop := range_less b a = false.
Global Instance range_le_dec a b : Decision (range_le a b).
Proof. unfold range_le. apply _. Defined.

(** range32.go:180-216, the loop of [mergeRanges]; [prev] is the last element of
    out, [acc] the elements before it, in reverse.  None is (nil, false). *)
Fixpoint merge_loop (c : idcfg) (acc : list range) (prev : range) (rr : list range)
    : option (list range) :=
  match rr with
  | [] => Some (rev (prev :: acc))
  | r :: rr' =>
      if negb (is_valid r) then None
      else if id_eqb (id_next c (r_to prev)) (r_from r) then
        merge_loop c acc (set_to prev (r_to r)) rr'
      else if id_less (r_to prev) (r_from r) then merge_loop c (prev :: acc) r rr'
      else if id_less (r_to prev) (r_to r) then
        merge_loop c acc (set_to prev (r_to r)) rr'
      else merge_loop c acc prev rr'
  end.

(** range32.go:177 sorts the caller's slice in place (for 0 or 1 elements this
    is the identity). *)
Definition sort_ranges (rr : list range) : list range := merge_sort range_le rr.

(** range32.go:166-218 [mergeRanges]. *)
Definition merge_ranges (c : idcfg) (rr : list range) : option (list range) :=
  match rr with
  | [] => Some []
  | [r] => Some [r]
  | _ => match sort_ranges rr with
         | [] => Some []
         | r :: rr' => merge_loop c [] r rr'
         end
  end.

(** idset.go:10-14 [IDSetBuilder]; [b_errs] lists the joined errors. *)
Record builder : Type := Builder { b_in : list range; b_out : list range; b_errs : list err }.
Definition builder_zero : builder := Builder [] [] [].

(** idset.go:81-151, the merge loop of [normalize]; the result is min. *)
Fixpoint normalize_loop (c : idcfg) (fuel : nat) (in_ out min : list range) : res (list range) :=
  match fuel with
  | O => Panic
  | S fuel' =>
      match in_, out with
      | rin :: in', rout :: out' =>
          if negb (is_valid rout) || negb (is_valid rin) then Panic
          else if entirely_before rout rin then normalize_loop c fuel' in_ out' min
          else if entirely_before rin rout then normalize_loop c fuel' in' out (min ++ [rin])
          else if covered_by rin rout then normalize_loop c fuel' in' out min
          else if in_middle_of rout rin then
            normalize_loop c fuel' (set_from rin (id_next c (r_to rout)) :: in') out'
              (min ++ [Range (r_from rin) (id_prev c (r_from rout))])
          else if overlaps_start_of rout rin then
            normalize_loop c fuel' (set_from rin (id_next c (r_to rout)) :: in') out' min
          else if overlaps_end_of rout rin then
            normalize_loop c fuel' in' out
              (min ++ [Range (r_from rin) (id_prev c (r_from rout))])
          else Panic
      | _, _ => Ok (min ++ in_)
      end
  end.

(** idset.go:67-156 [normalize]. *)
Definition normalize (c : idcfg) (s : builder) : res builder :=
  match merge_ranges c (b_in s) with
  | None => Ok (Builder (sort_ranges (b_in s)) (b_out s) (b_errs s))
  | Some in_ =>
      match merge_ranges c (b_out s) with
      | None => Ok (Builder (sort_ranges (b_in s)) (sort_ranges (b_out s)) (b_errs s))
      | Some out =>
          do min <- normalize_loop c (S (length in_ + length out)) in_ out [];
          Ok (Builder min [] (b_errs s))
      end
  end.

(** idset.go:33-42 [AddRange]. *)
Definition add_range (c : idcfg) (s : builder) (r : range) : res builder :=
  if negb (is_valid r) then Ok (Builder (b_in s) (b_out s) (b_errs s ++ [EAddRange]))
  else
    do s <- (if (0 <? length (b_out s))%nat then normalize c s else Ok s);
    Ok (Builder (b_in s ++ [r]) (b_out s) (b_errs s)).

(** idset.go:45-52 [RemoveRange]. *)
Definition remove_range (s : builder) (r : range) : builder :=
  if is_valid r then Builder (b_in s) (b_out s ++ [r]) (b_errs s)
  else Builder (b_in s) (b_out s) (b_errs s ++ [ERemoveRange]).

(** idset.go:16-22 [AddId]; IsValid on the zero range dereferences nil. *)
Definition add_id (c : idcfg) (s : builder) (x : id) : res builder :=
  do r <- range_of_id c x;
  match r with
  | None => Panic
  | Some r =>
      if is_valid r then add_range c s r
      else Ok (Builder (b_in s) (b_out s) (b_errs s ++ [EAddId]))
  end.

(** idset.go:25-31 [RemoveId]. *)
Definition remove_id (c : idcfg) (s : builder) (x : id) : res builder :=
  do r <- range_of_id c x;
  match r with
  | None => Panic
  | Some r =>
      if is_valid r then Ok (remove_range s r)
      else Ok (Builder (b_in s) (b_out s) (b_errs s ++ [ERemoveId]))
  end.

(** idset.go:172-179 [IDSet]: its field rr. *)
Definition idset : Type := list range.

(** idset.go:55-62 [AddSet] (non-nil argument). *)
Fixpoint add_set (c : idcfg) (s : builder) (b : idset) : res builder :=
  match b with
  | [] => Ok s
  | r :: b' => do s' <- add_range c s r; add_set c s' b'
  end.

(** idset.go:158-170 [IPSet]: the set and the collected errors, which are reset. *)
Definition ip_set (c : idcfg) (s : builder) : res (builder * (idset * list err)) :=
  do s' <- normalize c s;
  Ok (Builder (b_in s') (b_out s') [], (b_in s', b_errs s')).

(** idset.go:183-185 [Ranges]. *)
Definition set_ranges (s : idset) : list range := s.

(** idset.go:189-195 [IDs]. *)
Fixpoint set_ids (c : idcfg) (s : idset) : res (list id) :=
  match s with
  | [] => Ok []
  | r :: s' => do l <- range_ids c r; do rest <- set_ids c s'; Ok (l ++ rest)
  end.

(** idset.go:206-217, the inner loop of [RemoveFreePrefix]. *)
Fixpoint best_fit (bitlen : N) (best : option id) (ids : list id) : option id :=
  match ids with
  | [] => best
  | x :: ids' =>
      if bitlen <? i_len x then best_fit bitlen best ids'
      else if match best with None => true | Some b => i_len b <? i_len x end then
        if i_len x =? bitlen then Some x (* break *)
        else best_fit bitlen (Some x) ids'
      else best_fit bitlen best ids'
  end.

(** idset.go:205-218, the outer loop. *)
Fixpoint best_fit_set (c : idcfg) (bitlen : N) (best : option id) (rr : list range) : res (option id) :=
  match rr with
  | [] => Ok best
  | r :: rr' => do ids <- range_ids c r; best_fit_set c bitlen (best_fit bitlen best ids) rr'
  end.

(** idset.go:203-231 [RemoveFreePrefix]; None is ok = false (the set is then s
    itself). *)
Definition remove_free_prefix (c : idcfg) (s : idset) (bitlen : N) : res (option (id * idset)) :=
  do best <- best_fit_set c bitlen None s;
  match best with
  | None => Ok None
  | Some b =>
      let x := MyId (uwrap (id_w c) (i_id b)) bitlen in
      do bl <- add_set c builder_zero s;
      do bl <- remove_id c bl x;
      do res <- ip_set c bl;
      Ok (Some (x, fst (snd res)))
  end.

(** The calls on a builder (idset.go:16-65, 158-170). *)
Inductive bop : Type :=
| BAddId (x : id) | BRemoveId (x : id) | BAddRange (r : range) | BRemoveRange (r : range)
| BAddSet (s : idset) | BIPSet.

Definition b_step (c : idcfg) (s : builder) (o : bop) : res builder :=
  match o with
  | BAddId x => add_id c s x
  | BRemoveId x => remove_id c s x
  | BAddRange r => add_range c s r
  | BRemoveRange r => Ok (remove_range s r)
  | BAddSet b => add_set c s b
  | BIPSet => do x <- ip_set c s; Ok (fst x)
  end.

(** A new builder, the calls [os], then IPSet(): the set and the errors. *)
Fixpoint b_run (c : idcfg) (s : builder) (os : list bop) : res builder :=
  match os with
  | [] => Ok s
  | o :: os' => do s' <- b_step c s o; b_run c s' os'
  end.
Definition build (c : idcfg) (os : list bop) : res (idset * list err) :=
  do s <- b_run c builder_zero os; do x <- ip_set c s; Ok (snd x).
