(** Model of the printing calls of pkg/tree and of tree16, tree32, tree64: what
    PrintNodes and PrintValues write, line by line; the text of a line is left to
    fmt. *)
From Verif Require Export GTreeModel.

Section Print.
Context {T : Type}.

(** tree.go:593-597 [PrintNodes]: one line for each element of r.nodes, its index
    and the node; the argument is not used. *)
Definition print_nodes (s : tree T) : list (N * option node) :=
  (fun i => (N.of_nat i, t_nodes s !! N.of_nat i)) <$> seq 0 (N.to_nat (t_n s)).

(** tree.go:601-605 [PrintValues]: one line for each entry of r.vals, its key and
    the value.  Go ranges over a map in no fixed order: only the lines up to their
    order are meant. *)
Definition print_values (s : tree T) : list (N * T) := map_to_list (t_vals s).
End Print.

(** tree16.go:262-264 [PrintNodes]; 266-268 [PrintValues]. *)
Definition g_print_nodes {L} (g : gtree L) : list (N * option node) := print_nodes (g_tree g).
Definition g_print_values {L} (g : gtree L) : list (N * option (tentry L)) := print_values (g_tree g).
