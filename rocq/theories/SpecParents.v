(* SpecParents.v -- the parents of the objects of a document: what they have to be *)
From Verif Require Export Visitor SpecVisitor.
From Coq Require Import List.
Import ListNotations.
#[local] Open Scope list_scope.

(* An object was made by a parser for a node of the text; or afterwards, for a table of
   contents, a list of footnotes, a footnote or a group; or it is a copy. *)
Inductive provenance := Parsed | Made | Copied.

(* nodes in a list have the context: from the first to the last *)
Definition from_to (h : heap) (ls : list nat) (c : context) : Prop :=
  exists a z oa oz, hd_error ls = Some a /\ (exists before, ls = before ++ [z]) /\ nth_error h a = Some oa /\ nth_error h z = Some oz /\ c = merge_contexts (o_ctx oa) (o_ctx oz).

(* The node c (the object oc) is in the attribute of the object l (o): its origin and its
   parent. *)
Definition right_parent (from : nat -> provenance) (h : heap) (l : nat) (o : obj) (name : string) (c : nat) (oc : obj) : Prop :=
  let under (w : provenance) (p : option nat) := from c = w /\ o_parent oc = p in
  if pointer (o_kind o) name then
    (* a link and an entry of a table of contents go to a header of the text; a mention
       and an entry of a list of footnotes to a footnote, which has no parent *)
    match o_kind o with KMacroHeader | KTocItem => o_kind oc = KHeader /\ from c = Parsed | _ => o_kind oc = KFootnote /\ under Made None end
  else match from l with
  (* a copy has copies, which have it as their parent *)
  | Copied => under Copied (Some l)
  | Made => match o_kind o with
      (* the entries of a table of contents have it as their parent, at any depth *)
      | KTocItem => o_kind oc = KTocItem /\ under Made (o_parent o)
      (* a footnote has copies of the content of its body *)
      | KFootnote => under Copied (Some l)
      (* a block of a group has an item with its position as its parent *)
      | KBlockGroupItem => from c = Parsed /\ exists p op, o_parent oc = Some p /\ nth_error h p = Some op /\ from p = Made /\ face op = face o
      | _ => False
      end
  | Parsed =>
      (* labels have the node as their parent *)
      if String.eqb name "labels" then o_kind oc = KLabel /\ under Parsed (Some l)
      else match o_kind o with
      (* the text of a macro has no parent, nor has a callout *)
      | KMacroClass | KMacroLink | KSourceLine => under Parsed None
      (* a link to a header has its own text, or a copy of the header's *)
      | KMacroHeader => under Parsed None \/ under Copied (Some l)
      (* the text of a line has the paragraph as its parent, and the text of an item the
         list (the outermost), as the line and the item have *)
      | KParagraphLine | KListItem => under Parsed (o_parent o)
      (* an item, and a list inside a list, has the outermost list as its parent *)
      | KList => under Parsed (if match fget "main_node" (o_fields o) with Some (Plain (VBool b)) => b | _ => false end then Some l else o_parent o)
      (* the nodes of an included document have the node of that document as their parent *)
      | KIncludeMau => from c = Parsed /\ exists d od ls, o_parent oc = Some d /\ nth_error h d = Some od /\ from d = Parsed /\
          o_kind od = KDocument /\ o_parent od = None /\ o_args od = empty_args /\
          fget "content" (o_fields od) = Some (Nodes ls) /\ fget "content" (o_fields o) = Some (Nodes ls) /\ from_to h ls (o_ctx od)
      (* a table of contents has the entries, and copies of the headers *)
      | KToc => if String.eqb name "plain_entries" then under Copied (Some l) else o_kind oc = KTocItem /\ under Made (Some l)
      | KFootnotes => o_kind oc = KFootnotesItem /\ under Made (Some l)
      (* an item of a group has a node of the group (with that name) as its parent *)
      | KBlockGroup => o_kind oc = KBlockGroupItem /\ from c = Made /\ exists p op, o_parent oc = Some p /\ nth_error h p = Some op /\ from p = Parsed /\
          o_kind op = KBlockGroup /\ custom_fields op = custom_fields o
      (* the others have the nodes inside: styles, headers, labels, paragraphs, blocks, the document, ... *)
      | _ => under Parsed (Some l)
      end
  end.
