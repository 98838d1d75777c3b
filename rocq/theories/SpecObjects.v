(* SpecObjects.v -- the objects of a document: what they have to be *)
From Verif Require Export Visitor SpecNumbers.
From Coq Require Import List.
Import ListNotations.
#[local] Open Scope list_scope.

(* A node with its class, arguments, context, number (if it is completed later) and
   attributes: values, nodes, nodes with a key, a node or none. *)
Inductive tree := Tree (k : kind) (a : node_args) (c : context) (num : option nat) (fs : list (string * attr))
with attr := TValue (v : value) | TNodes (l : list tree) | TNamed (l : list (str * tree)) | TOne (o : option tree).

(* The object l of a heap is the root of the tree: the objects have the class, the
   arguments, the context and (at least) the attributes of the nodes.  [at_] says which
   objects have a number: [at_ k i l] if the object l has the class k and the number i. *)
Inductive is_tree (at_ : kind -> nat -> nat -> Prop) (h : heap) : tree -> nat -> Prop :=
| is_node k a c num fs l o : nth_error h l = Some o -> o_kind o = k -> o_args o = a -> o_ctx o = c ->
    (forall i, num = Some i -> at_ k i l) ->
    Forall (fun nf : string * attr => exists f, fget (fst nf) (o_fields o) = Some f /\ is_attr at_ h (snd nf) f) fs ->
    is_tree at_ h (Tree k a c num fs) l
with is_attr (at_ : kind -> nat -> nat -> Prop) (h : heap) : attr -> field -> Prop :=
| is_value v : is_attr at_ h (TValue v) (Plain v)
| is_nodes ts ls : Forall2 (is_tree at_ h) ts ls -> is_attr at_ h (TNodes ts) (Nodes ls)
| is_named ts ls : Forall2 (fun (t : str * tree) (l : str * nat) => fst t = fst l /\ is_tree at_ h (snd t) (snd l)) ts ls -> is_attr at_ h (TNamed ts) (Named ls)
| is_none : is_attr at_ h (TOne None) (One None)
| is_one t l : is_tree at_ h t l -> is_attr at_ h (TOne (Some t)) (One (Some l)).
(* without numbers *)
Definition anywhere (k : kind) (i l : nat) : Prop := True.

(* ------------------------------------------------------------- the nodes *)
Definition text (s : str) : attr := TValue (VStr s).
Definition maybe (o : option str) : attr := TValue (match o with Some s => VStr s | None => VNone end).
Definition texts (l : list str) : attr := TValue (VStrs l).
Definition number (n : nat) : attr := TValue (VInt (Z.of_nat n)).

(* The nodes of a text.  The footnote of a mention and the header of a link are given
   later, and so is the content of a link that has none. *)
Fixpoint inode_tree (i : inode) : tree :=
  match i with
  | NWord v c => Tree KWord empty_args c None [("value", text v)]
  | NText v c => Tree KText empty_args c None [("value", text v)]
  | NVerbatim v c => Tree KVerbatim empty_args c None [("value", text v)]
  | NStyle s l c => Tree KStyle empty_args c None [("style", text s); ("content", TNodes (map inode_tree l))]
  | NMacro name a c => Tree KMacro a c None [("name", text name)]
  | NClass classes l c => Tree KMacroClass empty_args c None [("classes", texts classes); ("content", TNodes (map inode_tree l))]
  | NLink target l c => Tree KMacroLink empty_args c None [("target", text target); ("content", TNodes (map inode_tree l))]
  | NImage uri alt width height c => Tree KMacroImage empty_args c None [("uri", text uri); ("alt_text", maybe alt); ("width", maybe width); ("height", maybe height)]
  | NHeaderLink id target l c => Tree KMacroHeader empty_args c (Some id)
      (("target_name", text target) :: match l with [] => [] | _ => [("content", TNodes (map inode_tree l))] end)
  | NFootnote id name c => Tree KMacroFootnote empty_args c (Some id) [("name", text name)]
  | NUnicode v c => Tree KMacroUnicode empty_args c None [("value", text v)]
  | NRaw v c => Tree KMacroRaw empty_args c None [("value", text v)]
  end%string.
Definition content_attr (l : list inode) : string * attr := ("content"%string, TNodes (map inode_tree l)).
(* a label has the role that is its key *)
Definition labels_attr (l : labels) : string * attr :=
  ("labels"%string, TNamed (map (fun kv : str * list inode => (fst kv, Tree KLabel empty_args empty_context None [("role"%string, text (fst kv)); content_attr (snd kv)])) l)).
(* The internal id of a header is given later. *)
Definition header_tree (h : header) : tree :=
  Tree KHeader (h_args h) (h_ctx h) (Some (h_id h)) [("level"%string, number (h_level h)); ("name"%string, maybe (h_name h)); content_attr (h_content h); labels_attr (h_labels h)].
Definition line_tree (l : list inode * context) : tree := Tree KParagraphLine empty_args (snd l) None [content_attr (fst l); labels_attr []].
Definition raw_line_tree (l : str * context) : tree := Tree KRawLine empty_args (snd l) None [("value"%string, text (fst l))].
Definition source_line_tree (l : source_line) : tree :=
  Tree KSourceLine empty_args (sl_ctx l) None [("line_number", text (sl_number l)); ("line_content", text (sl_content l)); ("highlight_style", maybe (sl_style l));
    ("marker", TOne (option_map (fun m : str * context => Tree KSourceMarker empty_args (snd m) None [("value"%string, text (fst m))]) (sl_marker l)))]%string.
(* The entries of a table of contents, the footnotes of a list of footnotes and the
   items of a group are given later. *)
Fixpoint node_tree (d : dnode) : tree :=
  let node k (a : attrs) num fs := Tree k (at_args a) (at_ctx a) num (fs ++ [labels_attr (at_labels a)]) in
  match d with
  | DRule a => node KRule a None []
  | DHeader h => header_tree h
  | DParagraph lines a => node KParagraph a None [("content", TNodes (map line_tree lines))]
  | DBlock classes l a => node KBlock a None [("classes", texts classes); ("content", TNodes (map node_tree l))]
  | DRaw classes lines a => node KRaw a None [("classes", texts classes); ("content", TNodes (map raw_line_tree lines))]
  | DSource classes language lines a => node KSource a None [("language", maybe language); ("classes", texts classes); ("content", TNodes (map source_line_tree lines))]
  | DList ordered main start l a =>
      node KList a None [("ordered", TValue (VBool ordered)); ("main_node", TValue (VBool main)); ("start", TValue (VInt start)); ("content", TNodes (map node_tree l))]
  | DItem level l c => Tree KListItem empty_args c None [("level", number level); content_attr l]
  | DImage uri alt classes a => node KIncludeImage a None [("uri", text uri); ("alt_text", maybe alt); ("classes", texts classes)]
  | DMau uri l a => node KIncludeMau a None [("uri", text uri); ("content", TNodes (map node_tree l))]
  | DIncludeRaw uri lines a => node KIncludeRaw a None [("uri", text uri); ("content", TNodes (map raw_line_tree lines))]
  | DToc id a => node KToc a (Some id) []
  | DFootnotes id a => node KFootnotes a (Some id) []
  | DGroup id name a => node KBlockGroup a (Some id) [("name", text name)]
  | DInclude ctype a => node KInclude a None [("ctype", text ctype)]
  end%string.
(* the document *)
Definition document_tree (d : list dnode * context) : tree := Tree KDocument empty_args (snd d) None [("content"%string, TNodes (map node_tree (fst d)))].
(* a footnote has the content of the block that is its body *)
Definition contents (t : tree) : list tree :=
  match t with Tree _ _ _ _ fs => match find (fun nf : string * attr => String.eqb "content" (fst nf)) fs with Some (_, TNodes l) => l | _ => [] end end.
Definition footnote_tree (f : footnote copy) : tree :=
  Tree KFootnote empty_args empty_context None
    [("name", text (fn_name f)); ("public_id", text (fn_public_id f)); ("internal_id", text (fn_internal_id f)); ("content", TNodes (contents (node_tree (snd (fn_content f)))))]%string.

(* ------------------------------------------------------------- what is given later *)
(* the last of the assignments for which sel gives something *)
Definition last_one {A} (sel : assign -> option A) (done : list assign) : option A :=
  fold_left (fun acc a => match sel a with Some x => Some x | None => acc end) done None.
Definition if_same {A} (i j : nat) (a : A) : option A := if Nat.eqb i j then Some a else None.
Definition note_to (i : nat) (a : assign) : option (footnote copy) := match a with AFootnote j f => if_same i j f | _ => None end.
Definition notes_to (i : nat) (a : assign) : option (list (footnote copy)) := match a with AFootnotes j l => if_same i j l | _ => None end.
Definition id_to (i : nat) (a : assign) : option str := match a with AInternal j s => if_same i j s | _ => None end.
Definition toc_to (i : nat) (a : assign) : option (list toc_item * list header) := match a with AToc j n p => if_same i j (n, p) | _ => None end.
Definition link_to (i : nat) (a : assign) : option header := match a with AHeader j h _ => if_same i j h | _ => None end.
Definition group_to (i : nat) (a : assign) : option (dict dnode) := match a with AGroup j _ items => if_same i j items | _ => None end.

Definition has (h : heap) (l : nat) (name : string) (f : field) : Prop := exists o, nth_error h l = Some o /\ fget name (o_fields o) = Some f.
Definition is_a (h : heap) (l : nat) (k : kind) : Prop := exists o, nth_error h l = Some o /\ o_kind o = k /\ o_args o = empty_args /\ o_ctx o = empty_context.

(* an entry of a table of contents: the header with the number, and the entries below it *)
Inductive is_entry (at_ : kind -> nat -> nat -> Prop) (h : heap) : toc_item -> nat -> Prop :=
| is_toc_item hd es l p ls : is_a h l KTocItem -> has h l "header" (One (Some p)) -> at_ KHeader (h_id hd) p -> is_tree anywhere h (header_tree hd) p ->
    has h l "entries" (Nodes ls) -> Forall2 (is_entry at_ h) es ls -> is_entry at_ h (TocItem hd es) l.

(* The object l with the number i has what was given to it (last). *)
Definition completed (done : list assign) (at_ : kind -> nat -> nat -> Prop) (h : heap) (k : kind) (i l : nat) : Prop :=
  match k with
  (* a mention has the footnote *)
  | KMacroFootnote => forall f, last_one (note_to i) done = Some f -> exists p, has h l "footnote" (One (Some p)) /\ is_tree anywhere h (footnote_tree f) p
  (* a list of footnotes has an item for each footnote, in order *)
  | KFootnotes => forall fs, last_one (notes_to i) done = Some fs -> exists ls, has h l "footnotes" (Nodes ls) /\
      Forall2 (fun f l => is_a h l KFootnotesItem /\ exists p, has h l "footnote" (One (Some p)) /\ is_tree anywhere h (footnote_tree f) p) fs ls
  (* a header has the internal id *)
  | KHeader => forall s, last_one (id_to i) done = Some s -> has h l "internal_id" (Plain (VStr s))
  (* a table of contents has the nested entries, and copies of the headers *)
  | KToc => forall nested plain, last_one (toc_to i) done = Some (nested, plain) -> exists ls ps,
      has h l "nested_entries" (Nodes ls) /\ Forall2 (is_entry at_ h) nested ls /\
      has h l "plain_entries" (Nodes ps) /\ Forall2 (fun hd p => is_tree anywhere h (header_tree hd) p) plain ps
  (* a link has the header, and a content: its own or the copy of the header's *)
  | KMacroHeader => forall hd, last_one (link_to i) done = Some hd -> exists p,
      has h l "header" (One (Some p)) /\ at_ KHeader (h_id hd) p /\ is_tree anywhere h (header_tree hd) p /\
      exists hd' content ls, In (AHeader i hd' content) done /\ has h l "content" (Nodes ls) /\ Forall2 (fun n p => is_tree anywhere h (inode_tree n) p) content ls
  (* a group has, for each position, an item with the block *)
  | KBlockGroup => forall items, last_one (group_to i) done = Some items -> exists ls, has h l "items" (Named ls) /\
      Forall2 (fun (b : str * dnode) (e : str * nat) => fst b = fst e /\ is_a h (snd e) KBlockGroupItem /\ has h (snd e) "position" (Plain (VStr (fst b))) /\
        (exists g, in_group g (fst b) (snd b) /\ has h (snd e) "group" (Plain (VStr g)) /\ has h l "name" (Plain (VStr g))) /\
        exists p, has h (snd e) "block" (One (Some p)) /\ is_tree at_ h (node_tree (snd b)) p) items ls
  | _ => True
  end.
