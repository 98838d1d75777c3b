(* SpecRender.v -- documents that can be rendered, independently of Build.v *)
From Verif Require Export DocParser.
From Coq Require Import List.
Import ListNotations.
#[local] Open Scope list_scope.

(* a text that mentions no footnote and has no link to a header *)
Fixpoint quiet (i : inode) : bool :=
  match i with
  | NHeaderLink _ _ _ _ | NFootnote _ _ _ => false
  | NStyle _ l _ | NClass _ l _ | NLink _ l _ => forallb quiet l
  | _ => true
  end.
(* a header whose text and labels are such *)
Definition quiet_header (h : header) : bool :=
  forallb quiet (h_content h) && forallb (fun l : str * list inode => forallb quiet (snd l)) (h_labels h).

(* the headers in a node, at any depth *)
Fixpoint headers_of_node (d : dnode) : list header :=
  match d with
  | DHeader h => [h]
  | DBlock _ l _ | DList _ _ _ l _ | DMau _ l _ => flat_map headers_of_node l
  | _ => []
  end.
(* the headers in a table of contents *)
Fixpoint headers_of_item (t : toc_item) : list header :=
  match t with TocItem h entries => h :: flat_map headers_of_item entries end.
(* the headers that come with an assignment to a node: in the body of a footnote, in a
   block of a group, in a table of contents, as the target of a link *)
Definition headers_of_assign (a : assign) : list header :=
  match a with
  | AFootnote _ f => headers_of_node (snd (fn_content f))
  | AFootnotes _ l => flat_map (fun f => headers_of_node (snd (fn_content f))) l
  | AInternal _ _ => []
  | AToc _ nested plain => flat_map headers_of_item nested ++ plain
  | AHeader _ h _ => [h]
  | AGroup _ _ items => flat_map (fun kb : str * dnode => headers_of_node (snd kb)) items
  end.

(* No header of the document mentions a footnote or links to a header. *)
Definition quiet_headers (doc : list dnode) (done : list assign) : Prop :=
  forall h, In h (flat_map headers_of_node doc ++ flat_map headers_of_assign done) -> quiet_header h = true.
