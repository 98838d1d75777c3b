(* SpecDrawn.v -- what a visitor gives for a document, as a relation on the nodes of the
   document alone: no objects, no references *)
From Verif Require Export SpecObjects SpecParents.
From Coq Require Import List.
Import ListNotations.
#[local] Open Scope list_scope.

Definition tree_kind (t : tree) : kind := let 'Tree k _ _ _ _ := t in k.
Definition tree_args (t : tree) : node_args := let 'Tree _ a _ _ _ := t in a.
Definition tree_ctx (t : tree) : context := let 'Tree _ _ c _ _ := t in c.
Definition tree_attr (name : string) (t : tree) : option attr :=
  let 'Tree _ _ _ _ fs := t in option_map snd (find (fun nf : string * attr => String.eqb name (fst nf)) fs).

(* what the search for a template sees of a node *)
Definition tree_facet (t : tree) : facet :=
  mkFacet (type_name (tree_kind t)) (na_subtype (tree_args t)) (na_tags (tree_args t))
    (flat_map (fun name => match tree_attr name t with Some (TValue (VStr s)) => [(lit name, s)] | _ => [] end) (custom_names (tree_kind t))).

(* the entries that the data of every node has: its class, arguments, context *)
Definition basics (kw : kwargs) (t : tree) (d : list (str * data)) : Prop :=
  dget (lit "_type") d = Some (DtV (VStr (type_name (tree_kind t)))) /\
  dget (lit "args") d = Some (DtV (VStrs (na_unnamed (tree_args t)))) /\
  dget (lit "kwargs") d = Some (DtD (map (fun kv : str * str => (fst kv, DtV (VStr (snd kv)))) (na_named (tree_args t)))) /\
  dget (lit "tags") d = Some (DtV (VStrs (na_tags (tree_args t)))) /\
  dget (lit "internal_tags") d = Some (DtV (VStrs (na_internal (tree_args t)))) /\
  dget (lit "subtype") d = Some (DtV (match na_subtype (tree_args t) with Some s => VStr s | None => VNone end)) /\
  dget (lit "_context") d = (if kw_context kw then Some (DtC (tree_ctx t)) else None).
(* and those of the parent *)
Definition parent_entry (kw : kwargs) (pf : option tree) (d : list (str * data)) : Prop :=
  if kw_parent kw then exists dp, dget (lit "parent") d = Some (DtD dp) /\ match pf with Some p => basics kw p dp | None => dp = [] end
  else dget (lit "parent") d = None.

(* The node t, which comes from the text (or was made, or is a copy) and has the parent
   pf, has nodes in the attribute: where do they come from, and what is their parent? *)
Definition child_look (from : provenance) (pf : option tree) (t : tree) (name : string) (from' : provenance) (pf' : option tree) : Prop :=
  let is w p := from' = w /\ pf' = p in
  match from with
  | Copied => is Copied (Some t)
  | Made => match tree_kind t with
      | KTocItem => is Made pf
      | KFootnote => is Copied (Some t)
      | KBlockGroupItem => is Parsed (Some t)
      | _ => False
      end
  | Parsed =>
      if String.eqb name "labels" then is Parsed (Some t)
      else match tree_kind t with
      (* the text of a macro, a callout *)
      | KMacroClass | KMacroLink | KSourceLine => is Parsed None
      (* a link has its own text, or a copy of the header's *)
      | KMacroHeader => is Parsed None \/ is Copied (Some t)
      (* what is in a line has the paragraph as its parent, and what is in an item the list *)
      | KParagraphLine | KListItem => is Parsed pf
      (* the outermost list is the parent of all the items and lists in it *)
      | KList => is Parsed (match tree_attr "main_node" t with Some (TValue (VBool true)) => Some t | _ => pf end)
      (* an included document has a node of its own, which does not appear *)
      | KIncludeMau => from' = Parsed /\ exists first final, hd_error (contents t) = Some first /\ (exists before, contents t = before ++ [final]) /\
          pf' = Some (Tree KDocument empty_args (merge_contexts (tree_ctx first) (tree_ctx final)) None [])
      | KToc => if String.eqb name "plain_entries" then is Copied (Some t) else is Made (Some t)
      | KFootnotes => is Made (Some t)
      (* a group has some node of that name as the parent of its items *)
      | KBlockGroup => from' = Made /\ exists a c v, tree_attr "name" t = Some v /\ pf' = Some (Tree KBlockGroup a c None [("name"%string, v)])
      | _ => is Parsed (Some t)
      end
  end.

(* the nodes that are made in the end *)
Definition note_item : tree := Tree KFootnotesItem empty_args empty_context None [].
Definition toc_entry : tree := Tree KTocItem empty_args empty_context None [].
Definition group_item (g position : str) : tree := Tree KBlockGroupItem empty_args empty_context None [("group"%string, text g); ("position"%string, text position)].

Section Drawn.
Context (hk : hooks) (kw : kwargs) (done : list assign).

(* [data_of from live pf t d]: d is the data of the node t, whose parent is pf; [live]
   if the nodes with a number have what was given to them in the end (copies may be made
   before that). *)
Inductive data_of : provenance -> bool -> option tree -> tree -> list (str * data) -> Prop :=
| data_node from live pf k a c num fs d :
    basics kw (Tree k a c num fs) d -> parent_entry kw pf d ->
    (* every attribute that is not hidden *)
    (forall name v, In (name, v) fs -> hidden k name = false -> exists e, dget (lit name) d = Some e /\ attr_drawn from live pf (Tree k a c num fs) name v e) ->
    (* what is given in the end: to a mention the data of the footnote, *)
    (forall i f, live = true -> num = Some i -> k = KMacroFootnote -> last_one (note_to i) done = Some f ->
      exists e, dget (lit "footnote") d = Some (DtD e) /\ data_of Made false None (footnote_tree f) e) ->
    (* to a list of footnotes an item for each, *)
    (forall i l, live = true -> num = Some i -> k = KFootnotes -> last_one (notes_to i) done = Some l ->
      exists rs, dget (lit "footnotes") d = Some (hk_list hk KFootnotes rs) /\
        Forall2 (fun f r => exists from' pf', child_look from pf (Tree k a c num fs) "footnotes" from' pf' /\ item_drawn from' pf' f r) l rs) ->
    (* to a header its internal id, *)
    (forall i s, live = true -> num = Some i -> k = KHeader -> last_one (id_to i) done = Some s -> dget (lit "internal_id") d = Some (DtV (VStr s))) ->
    (* to a table of contents the entries, nested, and the headers, *)
    (forall i nested plain, live = true -> num = Some i -> k = KToc -> last_one (toc_to i) done = Some (nested, plain) -> exists rs ps,
      dget (lit "nested_entries") d = Some (hk_list hk KToc rs) /\ Forall2 (fun ti r => exists from' pf', child_look from pf (Tree k a c num fs) "nested_entries" from' pf' /\ entry_drawn from' pf' ti r) nested rs /\
      dget (lit "plain_entries") d = Some (hk_list hk KToc ps) /\
      Forall2 (fun hd r => exists from' pf', child_look from pf (Tree k a c num fs) "plain_entries" from' pf' /\ drawn from' false pf' (header_tree hd) r) plain ps) ->
    (* to a link the data of the header, and a text if it has none, *)
    (forall i hd, live = true -> num = Some i -> k = KMacroHeader -> last_one (link_to i) done = Some hd ->
      (exists e, dget (lit "header") d = Some (DtD e) /\ header_data hd e) /\
      exists hd' content rs, In (AHeader i hd' content) done /\ dget (lit "content") d = Some (hk_list hk KMacroHeader rs) /\
        Forall2 (fun n r => exists from' pf', child_look from pf (Tree k a c num fs) "content" from' pf' /\ drawn from' false pf' (inode_tree n) r) content rs) ->
    (* to a group the blocks, by position *)
    (forall i items, live = true -> num = Some i -> k = KBlockGroup -> last_one (group_to i) done = Some items ->
      exists rs, dget (lit "items") d = Some (DtD rs) /\
        Forall2 (fun (b : str * dnode) (r : str * data) => fst r = fst b /\ exists g, tree_attr "name" (Tree k a c num fs) = Some (text g) /\ in_group g (fst b) (snd b) /\
          exists from' pf', child_look from pf (Tree k a c num fs) "items" from' pf' /\ block_drawn from' pf' g (fst b) (snd b) (snd r)) items rs) ->
    data_of from live pf (Tree k a c num fs) d
(* an attribute: its value, what the nodes give, in order or with their keys *)
with attr_drawn : provenance -> bool -> option tree -> tree -> string -> attr -> data -> Prop :=
| drawn_value from live pf t name v : attr_drawn from live pf t name (TValue v) (DtV v)
| drawn_nodes from live pf t name ts rs :
    Forall2 (fun t' r => exists from' pf', child_look from pf t name from' pf' /\ drawn from' live pf' t' r) ts rs ->
    attr_drawn from live pf t name (TNodes ts) (hk_list hk (tree_kind t) rs)
| drawn_named from live pf t name ts rs :
    Forall2 (fun (t' : str * tree) (r : str * data) => fst r = fst t' /\ exists from' pf', child_look from pf t name from' pf' /\ drawn from' live pf' (snd t') (snd r)) ts rs ->
    attr_drawn from live pf t name (TNamed ts) (DtD rs)
| drawn_one from live pf t name t' r from' pf' : child_look from pf t name from' pf' -> drawn from' live pf' t' r -> attr_drawn from live pf t name (TOne (Some t')) r
| drawn_none from live pf t name : attr_drawn from live pf t name (TOne None) (hk_none hk)
(* what the visitor gives for a node: it sees the node, the parent, and the data *)
with drawn : provenance -> bool -> option tree -> tree -> data -> Prop :=
| drawn_node from live pf t d r : data_of from live pf t d -> hk_finish hk (tree_facet t, option_map tree_facet pf) (DtD d) = Ok r -> drawn from live pf t r
(* the item of a list of footnotes *)
with item_drawn : provenance -> option tree -> footnote copy -> data -> Prop :=
| drawn_item from pf f d r e : data_of from false pf note_item d ->
    dget (lit "footnote") d = Some (DtD e) -> data_of Made false None (footnote_tree f) e ->
    hk_finish hk (tree_facet note_item, option_map tree_facet pf) (DtD d) = Ok r -> item_drawn from pf f r
(* an entry of a table of contents: the data of the header, the entries below *)
with entry_drawn : provenance -> option tree -> toc_item -> data -> Prop :=
| drawn_entry from pf hd es d r e rs : data_of from false pf toc_entry d ->
    dget (lit "header") d = Some (DtD e) -> header_data hd e ->
    dget (lit "entries") d = Some (hk_list hk KTocItem rs) ->
    Forall2 (fun ti r => exists from' pf', child_look from pf toc_entry "entries" from' pf' /\ entry_drawn from' pf' ti r) es rs ->
    hk_finish hk (tree_facet toc_entry, option_map tree_facet pf) (DtD d) = Ok r -> entry_drawn from pf (TocItem hd es) r
(* the data of a header that is elsewhere in the document *)
with header_data : header -> list (str * data) -> Prop :=
| data_of_header pf hd d : data_of Parsed false pf (header_tree hd) d ->
    (forall s, last_one (id_to (h_id hd)) done = Some s -> dget (lit "internal_id") d = Some (DtV (VStr s))) -> header_data hd d
(* the item of a group *)
with block_drawn : provenance -> option tree -> str -> str -> dnode -> data -> Prop :=
| drawn_block from pf g position b d r e from' pf' : data_of from true pf (group_item g position) d ->
    dget (lit "block") d = Some e -> child_look from pf (group_item g position) "block" from' pf' -> drawn from' true pf' (node_tree b) e ->
    hk_finish hk (tree_facet (group_item g position), option_map tree_facet pf) (DtD d) = Ok r -> block_drawn from pf g position b r.
End Drawn.

(* what the visitor gives for a document *)
Definition rendered (hk : hooks) (kw : kwargs) (done : list assign) (d : list dnode * context) (r : data) : Prop :=
  drawn hk kw done Parsed true None (document_tree d) r.
