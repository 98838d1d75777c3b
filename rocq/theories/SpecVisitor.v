(* SpecVisitor.v -- node trees, independently of the methods of Visitor.v *)
From Verif Require Export Visitor.
From Coq Require Import List.
Import ListNotations.
#[local] Open Scope list_scope.

(* the references of an object, in its fields *)
Definition refs (f : field) : list nat :=
  match f with Plain _ => [] | Nodes l => l | Named d => map snd d | One (Some c) => [c] | One None => [] end.
(* every reference is to an object *)
Definition closed (h : heap) : Prop :=
  forall i o, nth_error h i = Some o ->
    (forall p, o_parent o = Some p -> p < length h) /\
    (forall k f c, In (k, f) (o_fields o) -> In c (refs f) -> c < length h).

(* A node contains the nodes of its fields, except those that are elsewhere in the
   document: the header of a link and of a toc entry, the footnote of a mention and
   of a footnotes entry. *)
Definition pointer (k : kind) (name : string) : bool :=
  match k, name with
  | KMacroHeader, "header"%string | KTocItem, "header"%string => true
  | KMacroFootnote, "footnote"%string | KFootnotesItem, "footnote"%string => true
  | _, _ => false
  end.
Definition child (h : heap) (i c : nat) : Prop :=
  exists o k f, nth_error h i = Some o /\ In (k, f) (o_fields o) /\ pointer (o_kind o) k = false /\ In c (refs f).
Inductive below (h : heap) (l : nat) : nat -> Prop :=
| below_self : below h l l
| below_child i c : below h l i -> child h i c -> below h l c.

(* what can be seen of a node as a parent *)
Definition face (o : obj) := (o_kind o, o_args o, o_ctx o, custom_fields o).
Definition parent_face (h : heap) (i : nat) : option (kind * node_args * context * dict str) :=
  match nth_error h i with Some o => option_map face (parent_of h o) | None => None end.

(* The parent of every node below l looks like the node that contains it. *)
Definition well_parented (h : heap) (l : nat) : Prop :=
  forall i c o, below h l i -> child h i c -> nth_error h i = Some o -> parent_face h c = Some (face o).

(* the attributes that an object of a class has (its constructor), with their shape *)
Inductive shape := SPlain | SNodes | SNamed | SOne | SOpt.
Definition of_shape (s : shape) (f : field) : Prop :=
  match s, f with
  | SPlain, Plain _ | SNodes, Nodes _ | SNamed, Named _ | SOne, One (Some _) | SOpt, One _ => True
  | _, _ => False
  end.
Definition attributes (k : kind) : list (string * shape) :=
  let content := ("content", SNodes)%string in
  let labels := ("labels", SNamed)%string in
  let plain (l : list string) (rest : list (string * shape)) := (map (fun s => (s, SPlain)) l ++ rest)%list in
  match k with
  | KNode => []
  | KValue | KText | KVerbatim | KWord | KMacroUnicode | KMacroRaw | KSourceMarker | KRawLine => plain ["value"] []
  | KWrapper | KDocument => [content]
  | KLabel => content :: plain ["role"] []
  | KStyle => plain ["style"] [content]
  | KHeader => plain ["level"; "internal_id"; "name"] [content; labels]
  | KMacro => plain ["name"] []
  | KMacroClass => plain ["classes"] [content]
  | KMacroLink => plain ["target"] [content]
  | KMacroImage => plain ["uri"; "alt_text"; "width"; "height"] []
  | KMacroHeader => plain ["target_name"] [("header", SOpt); content]
  | KMacroFootnote => plain ["name"] [("footnote", SOpt)]
  | KFootnote => plain ["name"; "public_id"; "internal_id"] [content]
  | KFootnotesItem => [("footnote", SOne)]
  | KFootnotes => [("footnotes", SNodes); labels]
  | KTocItem => [("header", SOne); ("entries", SNodes)]
  | KToc => [("plain_entries", SNodes); ("nested_entries", SNodes); labels]
  | KBlockGroupItem => plain ["group"; "position"] [("block", SOne)]
  | KBlockGroup => plain ["name"] [("items", SNamed); labels]
  | KBlock | KRaw => plain ["classes"] [content; labels]
  | KRule => [labels]
  | KInclude => plain ["ctype"] [labels]
  | KIncludeImage => plain ["uri"; "alt_text"; "classes"] [labels]
  | KIncludeMau | KIncludeRaw => plain ["uri"] [content; labels]
  | KListItem => content :: plain ["level"] []
  | KList => plain ["ordered"; "main_node"; "start"] [content; labels]
  | KParagraph | KParagraphLine => [content; labels]
  | KSourceLine => plain ["line_number"; "line_content"; "highlight_style"] [("marker", SOpt)]
  | KSource => plain ["language"; "classes"] [content; labels]
  | KCondition => plain ["variable"; "comparison"; "value"] []
  end%string.
(* an object as its constructor leaves it: exactly these attributes *)
Definition proper (o : obj) : Prop :=
  Forall2 (fun (kf : string * field) (ks : string * shape) => fst kf = fst ks /\ of_shape (snd ks) (snd kf)) (o_fields o) (attributes (o_kind o)).
Definition proper_heap (h : heap) : Prop := Forall proper h.

(* the height of the tree of contained nodes *)
Inductive height (h : heap) : nat -> nat -> Prop :=
| height_node i n : i < length h -> (forall c, child h i c -> height h c n) -> height h i (S n).

(* ------------------------------------------------------------- visits *)
(* The attributes that no visitor shows: the name of a mention of a footnote, the
   group of an item of a group, the parts of a condition. *)
Definition hidden (k : kind) (name : string) : bool :=
  match k, name with
  | KMacroFootnote, "name"%string | KBlockGroupItem, "group"%string => true
  | KCondition, _ => true
  | _, _ => false
  end.
(* what is shown of an attribute: its value, what is shown of its nodes in their
   order, the data (not the rendering) of a node that is elsewhere *)
Inductive shown (hk : hooks) (kw : kwargs) (n : nat) (h : heap) (k : kind) (name : string) : field -> data -> Prop :=
| shown_plain v : shown hk kw n h k name (Plain v) (DtV v)
| shown_nodes l ds : Forall2 (fun c d => visit hk kw n h c = Ok d) l ds -> shown hk kw n h k name (Nodes l) (hk_list hk k ds)
| shown_named l ds : Forall2 (fun (c : str * nat) (d : str * data) => fst d = fst c /\ visit hk kw n h (snd c) = Ok (snd d)) l ds -> shown hk kw n h k name (Named l) (DtD ds)
| shown_pointer c d : pointer k name = true -> visit_data hk kw n h c = Ok d -> shown hk kw n h k name (One (Some c)) d
| shown_no_pointer : pointer k name = true -> shown hk kw n h k name (One None) (DtD [])
| shown_node c d : pointer k name = false -> visit hk kw n h c = Ok d -> shown hk kw n h k name (One (Some c)) d
| shown_no_node : pointer k name = false -> shown hk kw n h k name (One None) (hk_none hk).
(* what is shown of every node *)
Definition shown_of_node (kw : kwargs) (o : obj) (d : list (str * data)) : Prop :=
  dget (lit "_type") d = Some (DtV (VStr (type_name (o_kind o)))) /\
  dget (lit "args") d = Some (DtV (VStrs (na_unnamed (o_args o)))) /\
  dget (lit "kwargs") d = Some (DtD (map (fun kv : str * str => (fst kv, DtV (VStr (snd kv)))) (na_named (o_args o)))) /\
  dget (lit "tags") d = Some (DtV (VStrs (na_tags (o_args o)))) /\
  dget (lit "internal_tags") d = Some (DtV (VStrs (na_internal (o_args o)))) /\
  dget (lit "subtype") d = Some (DtV (match na_subtype (o_args o) with Some s => VStr s | None => VNone end)) /\
  dget (lit "_context") d = (if kw_context kw then Some (DtC (o_ctx o)) else None).

(* the height of all that is visited, also elsewhere *)
Inductive visit_height (h : heap) : nat -> nat -> Prop :=
| visit_height_node i n o : nth_error h i = Some o ->
    (forall k f c, In (k, f) (o_fields o) -> In c (refs f) -> visit_height h c n) -> visit_height h i (S n).
