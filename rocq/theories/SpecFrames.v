(* SpecFrames.v -- the box of a node, in the text of its element *)
From Verif Require Export SpecDoc PropertiesLexer.
From Coq Require Import List.
Import ListNotations.
#[local] Open Scope list_scope.

(* A context is a box of lines and columns.  The least one that covers all of these: *)
Definition least_box (c : context) (l : list context) : Prop :=
  Forall (covers c) l /\ forall c', Forall (covers c') l -> covers c' c.

(* where the node of an element is *)
Definition framed (el : element) (n : dnode) : Prop :=
  match el with
  | ERule t => dnode_ctx n = t_ctx t
  (* from the marker to the last inline node of the content *)
  | EHeader h _ => exists hd final before, n = DHeader hd /\ h_content hd = before ++ [final] /\ c_source (dnode_ctx n) = c_source (t_ctx h) /\
      exists first, hd_error (h_content hd) = Some first /\ least_box (dnode_ctx n) [t_ctx h; inode_ctx first; inode_ctx final]
  (* between the two fences *)
  | EBlock o _ c => c_source (dnode_ctx n) = c_source (t_ctx o) /\ least_box (dnode_ctx n) [t_ctx o; t_ctx c]
  (* the prefix and the type, not the arguments *)
  | EInclude o ty _ => c_source (dnode_ctx n) = c_source (t_ctx o) /\ least_box (dnode_ctx n) [t_ctx o; t_ctx ty]
  (* from the first line to the last one, and each line where it is *)
  | EParagraph ls => exists lines a first final before, n = DParagraph lines a /\ map snd lines = map t_ctx ls /\
      hd_error ls = Some first /\ ls = before ++ [final] /\ c_source (dnode_ctx n) = c_source (t_ctx first) /\ least_box (dnode_ctx n) [t_ctx first; t_ctx final]
  (* from the first item to the last one, with the markers of both *)
  | EItems items => exists o m s content a first final before, n = DList o m s content a /\ hd_error content = Some first /\ content = before ++ [final] /\
      least_box (dnode_ctx n) [dnode_ctx first; dnode_ctx final] /\
      exists it1 it2 before', hd_error items = Some it1 /\ items = before' ++ [it2] /\ c_source (dnode_ctx n) = c_source (t_ctx (fst it1)) /\
        covers (dnode_ctx n) (t_ctx (fst it1)) /\ covers (dnode_ctx n) (t_ctx (fst it2))
  | _ => False
  end.
