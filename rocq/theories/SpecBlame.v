(* SpecBlame.v -- the node that an error of a visitor is about *)
From Verif Require Export SpecDrawn SpecManagers.
From Coq Require Import List.
Import ListNotations.
#[local] Open Scope list_scope.

(* the nodes in a node, at any depth, with the node itself *)
Inductive subnode (t : tree) : tree -> Prop :=
| sub_self : subnode t t
| sub_nodes k a c num fs name l u : In (name, TNodes l) fs -> In u l -> subnode t u -> subnode t (Tree k a c num fs)
| sub_named k a c num fs name l key u : In (name, TNamed l) fs -> In (key, u) l -> subnode t u -> subnode t (Tree k a c num fs)
| sub_one k a c num fs name u : In (name, TOne (Some u)) fs -> subnode t u -> subnode t (Tree k a c num fs).

(* what is parsed: the document, the bodies of footnotes and the blocks of groups, and
   the headers that are in a table of contents or have a link (they may be in a block
   that is excluded) *)
Inductive root (d : list dnode * context) (done : list assign) : tree -> Prop :=
| root_document : root d done (document_tree d)
| root_apart a b : In a done -> In b (set_apart a) -> root d done (node_tree b)
| root_toc i nested plain h : In (AToc i nested plain) done -> In h (flat_map preorder nested ++ plain) -> root d done (header_tree h)
| root_link i h content : In (AHeader i h content) done -> root d done (header_tree h).

(* [appears d done k a c]: a node of the class k, with the arguments a and the place c *)
Inductive appears (d : list dnode * context) (done : list assign) : kind -> node_args -> context -> Prop :=
| appears_node r t : root d done r -> subnode t r -> appears d done (tree_kind t) (tree_args t) (tree_ctx t)
(* the node of an included document, from the first node to the last one *)
| appears_included r t first final before : root d done r -> subnode t r -> tree_kind t = KIncludeMau ->
    hd_error (contents t) = Some first -> contents t = before ++ [final] ->
    appears d done KDocument empty_args (merge_contexts (tree_ctx first) (tree_ctx final))
(* the nodes that are made in the end have no place *)
| appears_made k : In k [KFootnote; KFootnotesItem; KTocItem; KBlockGroupItem] -> appears d done k empty_args empty_context.

(* the same place with lines counted from one, as a user counts them *)
Definition for_people (c c' : context) : Prop :=
  c_start_line c' = S (c_start_line c) /\ c_end_line c' = S (c_end_line c) /\
  c_start_column c' = c_start_column c /\ c_end_column c' = c_end_column c /\ c_source c' = c_source c.
(* the class of a node, its subtype and its tags, as templates see them *)
Definition facet_like (k : kind) (a : node_args) (f : facet) : Prop :=
  fc_type f = type_name k /\ fc_subtype f = na_subtype a /\ fc_tags f = na_tags a.
