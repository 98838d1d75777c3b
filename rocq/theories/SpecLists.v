(* SpecLists.v -- what a list of the document is (C38, C39) *)
From Verif Require Export SpecDoc.

(* the items in a node, in document order: level and content *)
Fixpoint leaves (n : dnode) : list (nat * list inode) :=
  match n with
  | DItem l c _ => [(l, c)]
  | DList _ _ _ content _ => flat_map leaves content
  | _ => []
  end.

(* a node in a list of items of level l: an item of that level, or a list of items of
   a greater level that starts with an item *)
Inductive in_list (l : nat) : dnode -> Prop :=
| in_item c ctx : in_list l (DItem l c ctx)
| in_sub o l' c ctx rest a : l < l' -> Forall (in_list l') rest ->
    in_list l (DList o false 1 (DItem l' c ctx :: rest) a).

(* the written items that are in the nodes, and the symbol of each list *)
Inductive covers : list item -> list dnode -> Prop :=
| cov_nil : covers [] []
| cov_item i its nodes : covers its nodes -> covers (i :: its) (snd i :: nodes)
| cov_list i subs inner o a its nodes :
    covers (i :: subs) inner -> (o = true <-> exists r, t_value (fst (fst i)) = lit "#" ++ r) ->
    covers its nodes -> covers ((i :: subs) ++ its) (DList o false 1 inner a :: nodes).

(* what a parser adds to the document *)
Definition adds (x x' : dx) (n : dnode) : Prop := dx_nodes x' = dx_nodes x ++ [n].
Definition adds_nothing (x x' : dx) : Prop := dx_nodes x' = dx_nodes x.

(* the numbers of the items of a list that starts at s: a list inside it has its own
   numbers *)
Fixpoint item_numbers (s : Z) (content : list dnode) : list Z :=
  match content with
  | [] => []
  | DItem _ _ _ :: r => s :: item_numbers (s + 1) r
  | _ :: r => item_numbers s r
  end.
Definition is_item (n : dnode) : Prop := exists l c ctx, n = DItem l c ctx.
Definition not_list (el : element) : Prop := forall items, el <> EItems items.

(* the value of a pending named argument *)
Definition pending_arg (x : dx) (key : string) : option str :=
  match dx_args x with Some a => dget (lit key) (na_named a) | None => None end.
