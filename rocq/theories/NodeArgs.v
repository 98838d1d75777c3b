(* NodeArgs.v -- mau/nodes/node_arguments.py *)
From Verif Require Export Dict.

(* node_arguments.py:8-47 set_names.  dict(zip(names, values)) is an update of
   the empty dictionary. *)
Definition set_names {A} (unnamed : list A) (named : dict A) (names : list str) : list A * dict A :=
  let names' := filter (fun n => negb (dmem n named)) names in
  let positional := dupd [] (combine names' unnamed) in
  (skipn (length names') unnamed, dupd named positional).

(* node_arguments.py:50-56 class NodeArguments *)
Record node_args := mkArgs {
  na_unnamed : list str;
  na_named : dict str;
  na_tags : list str;
  na_internal : list str;
  na_subtype : option str }.

Definition empty_args : node_args := mkArgs [] [] [] [] None.

(* node_arguments.py:61-66 NodeArguments.set_names *)
Definition args_set_names (a : node_args) (names : list str) : node_args :=
  let '(u, n) := set_names (na_unnamed a) (na_named a) names in
  mkArgs u n (na_tags a) (na_internal a) (na_subtype a).
