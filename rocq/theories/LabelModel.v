(** Label sets as the Go maps they are.  labels.Set is map[string]string, and a Go
    map is a reference: tree.NewEntry (pkg/tree/entry.go:34-39) keeps the map the
    caller passed, and Labels() (entry.go:23) hands out the same map.  The models of
    the tables and trees are parametric in the labels L; with L := [lref] an entry
    holds the reference, and the contents are in a heap that any holder of the
    reference can write to. *)
From stdpp Require Import strings gmap.
From Verif Require Import TableNModel IdModel.
From Coq Require Strings.String.
Import Coq.Strings.String.StringSyntax.

(** References to label sets, label sets (entry.go:18 labels.Set), and what the
    references point to. *)
Definition lref := N.
Definition labels := gmap string string.
Definition lheap := gmap lref labels.

(** The contents of the map behind a reference (entry.go:23 [Labels]). *)
Definition read (h : lheap) (p : lref) : labels := default ∅ (h !! p).
(** The statement m[k] = v of a holder of the reference. *)
Definition write (h : lheap) (p : lref) (k v : string) : lheap := <[p := <[k := v]> (read h p)]> h.
(** What a caller sees in an entry: its labels as they are now (entry.go:22-23). *)
Definition seen (h : lheap) (e : tentry lref) : tentry labels :=
  TEntry (te_id e) (te_len e) (read h (te_labels e)).
(** A selector looks at the contents (GetByLabel, ReleaseByLabel:
    selector.Matches(entry.Labels()), tree16.go:213). *)
Definition selects (h : lheap) (sel : labels -> bool) (p : lref) : bool := sel (read h p).

(** labels.Set.String() of k8s.io/apimachinery/pkg/labels: the texts key=value,
    sorted as byte strings, joined with commas (called at entry.go:24, 28). *)
Definition pair_string (kv : string * string) : string :=
  String.append (fst kv) (String.String "="%char (snd kv)).
Definition label_string (m : labels) : string :=
  String.concat "," (merge_sort (fun a b => Is_true (String.leb a b)) (map pair_string (map_to_list m))).

(** entry.go:25-32 [Equal] with these labels. *)
Definition equal (e1 e2 : tentry labels) : bool := entry_equal label_string String.eqb e1 e2.

(** entry.go:24 [String]: Sprintf("id: %d, labels: %s", r.id, r.labels.String()).
    The id is a struct of two numbers, which %d prints as {id length}. *)
Definition entry_string (e : tentry labels) : string :=
  String.append "id: {" (String.append (dec (te_id e)) (String.append " " (String.append (dec (te_len e))
    (String.append "}, labels: " (label_string (te_labels e)))))).
