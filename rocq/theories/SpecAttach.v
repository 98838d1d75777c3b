(* SpecAttach.v -- labels, arguments and conditions of the nodes (C42 to C44) *)
From Verif Require Export SpecLists.

(* the elements that make a node *)
Definition is_node (el : element) : Prop :=
  match el with
  | ERule _ | EHeader _ _ | EBlock _ _ _ | EInclude _ _ _ | EItems _ | EParagraph _ => True
  | _ => False
  end.

(* the body of a footnote or a block of a group: it is not put in the document *)
Definition arg_given (x : dx) (key : string) : Prop := exists v, pending_arg x key = Some v /\ v <> [].
Definition kept_apart (el : element) (x : dx) : Prop :=
  match el with
  | EBlock _ _ _ => arg_given x "footnote" \/ (arg_given x "group" /\ arg_given x "position")
  | _ => False
  end.

(* the node of a block, with any of the engines *)
Definition a_block (n : dnode) : Prop := match n with DBlock _ _ _ | DRaw _ _ _ | DSource _ _ _ _ => True | _ => False end.
(* the arguments and the labels of a node *)
Definition node_attrs (n : dnode) : node_args * labels :=
  match n with
  | DRule a | DParagraph _ a | DBlock _ _ a | DRaw _ _ a | DSource _ _ _ a | DList _ _ _ _ a | DImage _ _ _ a
  | DMau _ _ a | DIncludeRaw _ _ a | DToc _ a | DFootnotes _ a | DGroup _ _ a | DInclude _ a => (at_args a, at_labels a)
  | DHeader h => (h_args h, h_labels h)
  | DItem _ _ _ => (empty_args, [])
  end.

(* a has nothing that a0 has not: some arguments are used by the construct.  Those
   that no construct uses are kept. *)
Definition used_keys : list str :=
  map lit ["classes"; "engine"; "marker_delimiter"; "highlight_marker"; "highlight_default_style"; "language"; "internal_id"; "name";
           "uri"; "alt_text"; "pass_environment"; "group"]%string.
Definition unused (k : str) : Prop := ~ In k used_keys /\ startswith (lit "call:") k = false.
Definition part_of (a a0 : node_args) : Prop :=
  na_tags a = na_tags a0 /\ na_internal a = na_internal a0 /\ na_subtype a = na_subtype a0 /\
  (forall k v, In (k, v) (na_named a) -> In (k, v) (na_named a0) \/ In v (na_unnamed a0)) /\
  incl (na_unnamed a) (na_unnamed a0) /\
  (forall k, unused k -> dget k (na_named a) = dget k (na_named a0)).

(* the arguments for an element: the pending ones, or those on the line of an include *)
Definition given_args (el : element) (x : dx) (a : node_args) : Prop :=
  match el with
  | EInclude _ _ (Some (_, t)) => dx_args x = None /\ exists p, process_arguments_with_variables (dx_env x) t = Ok p /\ a = arguments_of p
  | _ => a = match dx_args x with Some a => a | None => empty_args end
  end.

(* the pending condition, in the environment e *)
Definition holds (e : env) (c : control) : Prop :=
  exists v, dget (ct_variable c) e = Some v /\ (ct_equal c = true <-> v = EStr (ct_value c)).
Definition allowed (x : dx) (e : env) : Prop := match dx_control x with None => True | Some c => holds e c end.

(* the role of a label line *)
Definition label_role (el : element) : list str :=
  match el with ELabel p _ => [match skipn 1 (t_value p) with [] => lit "title" | r => r end] | _ => [] end.
