(* SpecSpots.v -- where the nodes say that they are *)
From Verif Require Export SpecPlaces SpecBlame.
From Coq Require Import List.
Import ListNotations.
#[local] Open Scope list_scope.

(* The context is in the lines of the text, or of a file that can be included. *)
Definition in_text (cf : config) (text : str) (o : origin) (c : context) : Prop :=
  within (o_source o) (o_line o) (last_line text (o_line o)) c \/
  exists uri content, cf_files cf uri = File content /\ within (Some uri) 0 (last_line content 0) c.

(* The nodes that can be without a place: the labels (but not what is in them), a text
   that is empty, and the block that is the body of a footnote (but not what is in it). *)
Inductive placeless (done : list assign) (r t : tree) : Prop :=
| pl_label : tree_kind t = KLabel -> placeless done r t
| pl_empty a c num fs : t = Tree KText a c num fs -> In ("value"%string, TValue (VStr [])) fs -> placeless done r t
| pl_body a f : In a done -> In f (notes_of a) -> t = r -> r = node_tree (snd (fn_content f)) -> tree_ctx t = empty_context -> placeless done r t.

(* an included document: from its first node to its last one *)
Definition spans (t : tree) (c : context) : Prop :=
  tree_kind t = KIncludeMau /\ exists first final before, hd_error (contents t) = Some first /\ contents t = before ++ [final] /\ c = merge_contexts (tree_ctx first) (tree_ctx final).
