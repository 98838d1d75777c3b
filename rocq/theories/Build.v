(* Build.v -- the objects that the parsers make.

   The parser of the model (DocParser.v) gives a tree of nodes and the list of the
   assignments that were made, in order, to the nodes with a number.  Here the tree
   becomes a heap of objects (Visitor.v) with the parents that the code gives them,
   and the assignments are made. *)
From Verif Require Export DocParser Visitor.
From Coq Require Import List.
Import ListNotations.
#[local] Open Scope list_scope.

(* an object, and its number if it has one *)
Definition cell := (obj * option nat)%type.

(* The objects of a list of nodes from a position, one after the other, and the
   positions of the nodes. *)
Section Place.
  Context {A : Type} (f : nat -> A -> list cell).
  Fixpoint place (base : nat) (l : list A) : list nat * list cell :=
    match l with
    | [] => ([], [])
    | a :: r =>
        let cs := f base a in
        let (ls, rest) := place (base + List.length cs) r in
        (base :: ls, cs ++ rest)
    end.
End Place.

(* an object with its content, at the positions after it *)
Definition with_content (o : list nat -> obj) (num : option nat) (p : list nat * list cell) : list cell :=
  (o (fst p), num) :: snd p.

(* The inline nodes (text_parser.py).  The nodes inside a style have it as their
   parent (text_parser.py:440-453); the nodes inside a macro have none (the parser of
   the macro's text has no parent node: text_parser.py:500-830); the others have the
   parent given to _parse_text (document_parser.py:196-200). *)
Fixpoint inode_cells (parent : option nat) (base : nat) (i : inode) {struct i} : list cell :=
  let leaf k c fs := [(mkObj k parent empty_args c fs, None)] in
  match i with
  | NWord v c => leaf KWord c [("value", Plain (VStr v))]%string
  | NText v c => leaf KText c [("value", Plain (VStr v))]%string
  | NVerbatim v c => leaf KVerbatim c [("value", Plain (VStr v))]%string
  | NStyle s content c =>
      with_content (fun ls => mkObj KStyle parent empty_args c [("style", Plain (VStr s)); ("content", Nodes ls)]%string) None
        (place (inode_cells (Some base)) (S base) content)
  | NMacro name a c => [(mkObj KMacro parent a c [("name", Plain (VStr name))]%string, None)]
  | NClass classes content c =>
      with_content (fun ls => mkObj KMacroClass parent empty_args c [("classes", Plain (VStrs classes)); ("content", Nodes ls)]%string) None
        (place (inode_cells None) (S base) content)
  | NLink target content c =>
      with_content (fun ls => mkObj KMacroLink parent empty_args c [("target", Plain (VStr target)); ("content", Nodes ls)]%string) None
        (place (inode_cells None) (S base) content)
  | NImage uri alt width height c =>
      leaf KMacroImage c [("uri", Plain (VStr uri)); ("alt_text", Plain (opt_value alt)); ("width", Plain (opt_value width)); ("height", Plain (opt_value height))]%string
  | NHeaderLink id target content c =>
      with_content (fun ls => mkObj KMacroHeader parent empty_args c [("target_name", Plain (VStr target)); ("header", One None); ("content", Nodes ls)]%string) (Some id)
        (place (inode_cells None) (S base) content)
  | NFootnote id name c => [(mkObj KMacroFootnote parent empty_args c [("name", Plain (VStr name)); ("footnote", One None)]%string, Some id)]
  | NUnicode v c => leaf KMacroUnicode c [("value", Plain (VStr v))]%string
  | NRaw v c => leaf KMacroRaw c [("value", Plain (VStr v))]%string
  end.

(* document_parser.py:204-221 pop_labels: a label has the node as its parent, and its
   content has the label; label.py:38-43 gives it no context *)
Definition label_cells (host : nat) (base : nat) (l : str * list inode) : list cell :=
  with_content (fun ls => mkObj KLabel (Some host) empty_args empty_context [("content", Nodes ls); ("role", Plain (VStr (fst l)))]%string) None
    (place (inode_cells (Some base)) (S base) (snd l)).

(* a node with content and labels, at the positions after it *)
Definition with_labels (o : list nat -> list (str * nat) -> obj) (num : option nat) (base : nat) (l : labels) (p : list nat * list cell) : list cell :=
  let (ls, cs) := place (label_cells base) (S base + List.length (snd p)) l in
  (o (fst p) (combine (map fst l) ls), num) :: snd p ++ cs.

(* header.py:41-99 *)
Definition header_cells (parent : option nat) (base : nat) (h : header) : list cell :=
  with_labels (fun ls lb => mkObj KHeader parent (h_args h) (h_ctx h)
      [("level", Plain (VInt (Z.of_nat (h_level h)))); ("internal_id", Plain (opt_value (h_internal h))); ("name", Plain (opt_value (h_name h))); ("content", Nodes ls); ("labels", Named lb)]%string)
    (Some (h_id h)) base (h_labels h) (place (inode_cells (Some base)) (S base) (h_content h)).

(* paragraph.py:28-46: the line has the paragraph as its parent, and so has its text *)
Definition line_cells (paragraph : nat) (base : nat) (l : list inode * context) : list cell :=
  with_content (fun ls => mkObj KParagraphLine (Some paragraph) empty_args (snd l) [("content", Nodes ls); ("labels", Named [])]%string) None
    (place (inode_cells (Some paragraph)) (S base) (fst l)).
(* raw.py:31-45, include.py:314-325 *)
Definition raw_line_cells (parent : nat) (_ : nat) (l : str * context) : list cell :=
  [(mkObj KRawLine (Some parent) empty_args (snd l) [("value", Plain (VStr (fst l)))]%string, None)].
(* source.py:14-46 create_source_line, 158-176: the marker has no parent *)
Definition source_line_cells (parent : nat) (base : nat) (l : source_line) : list cell :=
  (mkObj KSourceLine (Some parent) empty_args (sl_ctx l)
     [("line_number", Plain (VStr (sl_number l))); ("line_content", Plain (VStr (sl_content l))); ("highlight_style", Plain (opt_value (sl_style l))); ("marker", One (match sl_marker l with Some _ => Some (S base) | None => None end))]%string, None) ::
  match sl_marker l with
  | Some (v, c) => [(mkObj KSourceMarker None empty_args c [("value", Plain (VStr v))]%string, None)]
  | None => []
  end.

(* The nodes of a document (document_processors/*.py; base_parser.py:53-57 _save gives
   the parent).  The content of a block has the block as its parent (default.py:66-68);
   the items of a list, their texts and the lists inside it have the outermost list
   (list.py:25-107); the content of an included document has the document node of its
   parser (include.py:237-277, document_parser.py:129-134, 256-262). *)
Fixpoint dnode_cells (parent : option nat) (base : nat) (d : dnode) {struct d} : list cell :=
  let node k (a : attrs) fs := fun (ls : list nat) (lb : list (str * nat)) => mkObj k parent (at_args a) (at_ctx a) (fs ls lb) in
  let none : list nat * list cell := ([], []) in
  match d with
  | DRule a => with_labels (node KRule a (fun _ lb => [("labels", Named lb)]%string)) None base (at_labels a) none
  | DHeader h => header_cells parent base h
  | DParagraph lines a =>
      with_labels (node KParagraph a (fun ls lb => [("content", Nodes ls); ("labels", Named lb)]%string)) None base (at_labels a)
        (place (line_cells base) (S base) lines)
  | DBlock classes content a =>
      with_labels (node KBlock a (fun ls lb => [("classes", Plain (VStrs classes)); ("content", Nodes ls); ("labels", Named lb)]%string)) None base (at_labels a)
        (place (dnode_cells (Some base)) (S base) content)
  | DRaw classes lines a =>
      with_labels (node KRaw a (fun ls lb => [("classes", Plain (VStrs classes)); ("content", Nodes ls); ("labels", Named lb)]%string)) None base (at_labels a)
        (place (raw_line_cells base) (S base) lines)
  | DSource classes language lines a =>
      with_labels (node KSource a (fun ls lb => [("language", Plain (opt_value language)); ("classes", Plain (VStrs classes)); ("content", Nodes ls); ("labels", Named lb)]%string))
        None base (at_labels a) (place (source_line_cells base) (S base) lines)
  | DList ordered main start content a =>
      with_labels (node KList a (fun ls lb => [("ordered", Plain (VBool ordered)); ("main_node", Plain (VBool main)); ("start", Plain (VInt start)); ("content", Nodes ls); ("labels", Named lb)]%string))
        None base (at_labels a) (place (dnode_cells (if main then Some base else parent)) (S base) content)
  | DItem level content c =>
      with_content (fun ls => mkObj KListItem parent empty_args c [("content", Nodes ls); ("level", Plain (VInt (Z.of_nat level)))]%string) None
        (place (inode_cells parent) (S base) content)
  | DImage uri alt classes a =>
      with_labels (node KIncludeImage a (fun _ lb => [("uri", Plain (VStr uri)); ("alt_text", Plain (opt_value alt)); ("classes", Plain (VStrs classes)); ("labels", Named lb)]%string))
        None base (at_labels a) none
  | DMau uri content a =>
      with_labels (node KIncludeMau a (fun ls lb => [("uri", Plain (VStr uri)); ("content", Nodes ls); ("labels", Named lb)]%string)) None base (at_labels a)
        match content with
        | [] => none
        | n :: _ =>
            let (ls, cs) := place (dnode_cells (Some (S base))) (S (S base)) content in
            (ls, (mkObj KDocument None empty_args (merge_contexts (dnode_ctx n) (dnode_ctx (last content n))) [("content", Nodes ls)]%string, None) :: cs)
        end
  | DIncludeRaw uri lines a =>
      with_labels (node KIncludeRaw a (fun ls lb => [("uri", Plain (VStr uri)); ("content", Nodes ls); ("labels", Named lb)]%string)) None base (at_labels a)
        (place (raw_line_cells base) (S base) lines)
  | DToc id a =>
      with_labels (node KToc a (fun _ lb => [("plain_entries", Nodes []); ("nested_entries", Nodes []); ("labels", Named lb)]%string)) (Some id) base (at_labels a) none
  | DFootnotes id a =>
      with_labels (node KFootnotes a (fun _ lb => [("footnotes", Nodes []); ("labels", Named lb)]%string)) (Some id) base (at_labels a) none
  | DGroup id name a =>
      with_labels (node KBlockGroup a (fun _ lb => [("name", Plain (VStr name)); ("items", Named []); ("labels", Named lb)]%string)) (Some id) base (at_labels a) none
  | DInclude ctype a =>
      with_labels (node KInclude a (fun _ lb => [("ctype", Plain (VStr ctype)); ("labels", Named lb)]%string)) None base (at_labels a) none
  end.

(* document_parser.py:256-262: the document node is the object 0 *)
Definition document_cells (doc : list dnode * context) : list cell :=
  with_content (fun ls => mkObj KDocument None empty_args (snd doc) [("content", Nodes ls)]%string) None
    (place (dnode_cells (Some 0)) 1 (fst doc)).

(* The nodes that are not in the tree: the body of a footnote of the parser that had
   made n assignments, and a block of a group node (of such a parser). *)
Inductive part := PBody (n : nat) (name : str) | PBlock (group made : nat) (position : str).
Definition part_eqb (p q : part) : bool :=
  match p, q with
  | PBody a s, PBody b t => (a =? b) && str_eqb s t
  | PBlock a m s, PBlock b n t => (a =? b) && (m =? n) && str_eqb s t
  | _, _ => false
  end.
Definition body_part (f : footnote copy) : part * dnode := (PBody (fst (fn_content f)) (fn_name f), snd (fn_content f)).
Definition parts_of (a : assign) : list (part * dnode) :=
  match a with
  | AFootnote _ f => [body_part f]
  | AFootnotes _ l => map body_part l
  | AGroup id made items => map (fun kb : str * dnode => (PBlock id made (fst kb), snd kb)) items
  | _ => []
  end.
(* the headers that assignments mention *)
Fixpoint toc_headers (t : toc_item) : list header :=
  match t with TocItem h entries => h :: flat_map toc_headers entries end.
Definition headers_in (a : assign) : list header :=
  match a with
  | AToc _ nested plain => flat_map toc_headers nested ++ plain
  | AHeader _ h _ => [h]
  | _ => []
  end.

(* the heap, the numbers (and classes) of its first objects, the parts (with the first
   number in them), the footnotes and the items of groups made so far *)
Definition kind_dec (a b : kind) : {a = b} + {a <> b}.
Proof. decide equality. Defined.
Definition tag := option (kind * nat).
Definition tag_of (c : cell) : tag := option_map (pair (o_kind (fst c))) (snd c).
Record build := mkBuild {
  b_heap : heap; b_nums : list tag; b_parts : list (part * option nat * nat);
  b_foots : list (nat * str * nat); b_items : list (nat * str * str * nat) }.

(* the position of the object of a class with a number *)
Definition tagged (k : kind) (i : nat) (t : tag) : bool :=
  match t with Some (l, j) => if kind_dec k l then i =? j else false | None => false end.
Fixpoint locate (k : kind) (i : nat) (l : list tag) : option nat :=
  match l with
  | [] => None
  | t :: r => if tagged k i t then Some 0 else option_map S (locate k i r)
  end.
Fixpoint first_number (cs : list cell) : option nat :=
  match cs with [] => None | (_, Some i) :: _ => Some i | _ :: r => first_number r end.
Definition add_cells (b : build) (cs : list cell) : build :=
  mkBuild (b_heap b ++ map fst cs) (b_nums b ++ map tag_of cs) (b_parts b) (b_foots b) (b_items b).
(* A part that is there already has a number that is there. *)
Definition same_part (i : option nat) (e : part * option nat * nat) : bool :=
  match i, snd (fst e) with Some i, Some j => i =? j | _, _ => false end.
Definition join_part (b : build) (p : part * dnode) : build :=
  let base := List.length (b_heap b) in
  let cs := dnode_cells None base (snd p) in
  let i := first_number cs in
  match find (same_part i) (b_parts b) with
  | Some (_, _, l) => mkBuild (b_heap b) (b_nums b) (b_parts b ++ [(fst p, i, l)]) (b_foots b) (b_items b)
  | None =>
      let b := add_cells b cs in
      mkBuild (b_heap b) (b_nums b) (b_parts b ++ [(fst p, i, base)]) (b_foots b) (b_items b)
  end.
(* A header that is not in the tree or in a part is in an excluded block.  Its parent
   is not modelled. *)
Definition add_header (b : build) (h : header) : build :=
  match locate KHeader (h_id h) (b_nums b) with
  | Some _ => b
  | None => add_cells b (header_cells None (List.length (b_heap b)) h)
  end.

Definition build_tree (doc : list dnode * context) (done : list assign) : build :=
  let cs := document_cells doc in
  let b := mkBuild (map fst cs) (map tag_of cs) [] [] [] in
  let b := fold_left join_part (flat_map parts_of done) b in
  fold_left add_header (flat_map headers_in done) b.

(* ---------------------------------------------------- the assignments *)
Fixpoint set_field (k : string) (v : field) (l : list (string * field)) : list (string * field) :=
  match l with [] => [] | (a, w) :: r => if String.eqb k a then (a, v) :: r else (a, w) :: set_field k v r end.
(* object.name = value *)
Definition put (h : heap) (l : nat) (k : string) (v : field) : heap :=
  match nth_error h l with
  | Some o => update l (mkObj (o_kind o) (o_parent o) (o_args o) (o_ctx o) (set_field k v (o_fields o))) h
  | None => h
  end.
Definition put_parent (h : heap) (l : nat) (p : nat) : heap :=
  match nth_error h l with
  | Some o => update l (mkObj (o_kind o) (Some p) (o_args o) (o_ctx o) (o_fields o)) h
  | None => h
  end.
Definition set_heap (b : build) (h : heap) : build := mkBuild h (b_nums b) (b_parts b) (b_foots b) (b_items b).
Definition nodes_in (h : heap) (l : nat) (k : string) : list nat :=
  match nth_error h l with
  | Some o => match fget k (o_fields o) with Some (Nodes ls) => ls | _ => [] end
  | None => []
  end.

(* footnotes_manager.py:95-106: a footnote with a copy of the content of its body *)
Definition same_foot (f : footnote copy) (e : nat * str * nat) : bool :=
  (fst (fn_content f) =? fst (fst e)) && str_eqb (fn_name f) (snd (fst e)).
Definition same_body (f : footnote copy) (e : part * option nat * nat) : bool := part_eqb (fst (body_part f)) (fst (fst e)).
Definition make_footnote (n : nat) (b : build) (f : footnote copy) : res build :=
  match find (same_foot f) (b_foots b), find (same_body f) (b_parts b) with
  | None, Some (_, _, body) =>
      let new := List.length (b_heap b) in
      let o content := mkObj KFootnote None empty_args empty_context
        [("name", Plain (VStr (fn_name f))); ("public_id", Plain (VStr (fn_public_id f))); ("internal_id", Plain (VStr (fn_internal_id f))); ("content", Nodes content)]%string in
      let? (h, ls) := copy_list (deepcopy n) new (nodes_in (b_heap b) body "content") (b_heap b ++ [o []]) in
      Ok (mkBuild (update new (o ls) h) (b_nums b) (b_parts b) (b_foots b ++ [(fst (fn_content f), fn_name f, new)]) (b_items b))
  | _, _ => Ok b
  end.
Fixpoint make_footnotes (n : nat) (b : build) (l : list (footnote copy)) : res build :=
  match l with [] => Ok b | f :: r => let? b := make_footnote n b f in make_footnotes n b r end.
(* All the footnotes of a parser are made before any is used (footnotes_manager.py:95-110). *)
Definition footnotes_of (a : assign) : list (footnote copy) :=
  match a with AFootnote _ f => [f] | AFootnotes _ l => l | _ => [] end.
Definition made_with (done : list assign) (f : footnote copy) : list (footnote copy) :=
  filter (fun g => fst (fn_content g) =? fst (fn_content f)) (flat_map footnotes_of done).
Definition foot_loc (b : build) (f : footnote copy) : res nat :=
  match find (same_foot f) (b_foots b) with Some (_, l) => Ok l | None => Exc (ExPy "KeyError") end.

(* toc_manager.py:62-103: the entries of a toc node, at all levels, have it as their
   parent *)
Fixpoint toc_cells (loc : header -> nat) (toc : nat) (base : nat) (t : toc_item) {struct t} : list cell :=
  match t with
  | TocItem h entries =>
      with_content (fun ls => mkObj KTocItem (Some toc) empty_args empty_context [("header", One (Some (loc h))); ("entries", Nodes ls)]%string) None
        (place (toc_cells loc toc) (S base) entries)
  end.
Definition header_loc (b : build) (h : header) : nat := match locate KHeader (h_id h) (b_nums b) with Some l => l | None => 0 end.

(* [h.deepcopy(parent=p) for h in l] *)
Definition copy_each (n : nat) (p : nat) (l : list nat) (h : heap) : res (heap * list nat) := copy_list (deepcopy n) p l h.

(* blockgroup_manager.py:35-45, 68-76: the item of a block, which is made once for
   each position of a group of a parser *)
Definition same_item (made : nat) (name pos : str) (e : nat * str * str * nat) : bool :=
  let '(m, n, p, _) := e in (made =? m) && str_eqb name n && str_eqb pos p.
Definition place_item (group made : nat) (name : str) (node : nat) (b : build) (pos : str) : build * nat :=
  match find (same_item made name pos) (b_items b) with
  | Some (_, l) => (set_heap b (put_parent (b_heap b) l node), l)
  | None =>
      let l := List.length (b_heap b) in
      let block := match find (fun e => part_eqb (PBlock group made pos) (fst (fst e))) (b_parts b) with Some (_, _, k) => k | None => 0 end in
      let o := mkObj KBlockGroupItem (Some node) empty_args empty_context
        [("group", Plain (VStr name)); ("position", Plain (VStr pos)); ("block", One (Some block))]%string in
      (mkBuild (put_parent (b_heap b) block l ++ [o]) (b_nums b) (b_parts b) (b_foots b) (b_items b ++ [(made, name, pos, l)]), l)
  end.
Fixpoint place_items (group made : nat) (name : str) (node : nat) (b : build) (l : list str) : build * list (str * nat) :=
  match l with
  | [] => (b, [])
  | pos :: r =>
      let (b, i) := place_item group made name node b pos in
      let (b, rest) := place_items group made name node b r in
      (b, (pos, i) :: rest)
  end.
Definition name_of (h : heap) (l : nat) : str :=
  match nth_error h l with
  | Some o => match fget "name" (o_fields o) with Some (Plain (VStr s)) => s | _ => [] end
  | None => []
  end.

(* An assignment.  The objects that are not in the tree are left alone: nothing that
   is rendered refers to them. *)
Definition do_assign (n : nat) (done : list assign) (b : build) (a : assign) : res build :=
  match a with
  (* footnotes_manager.py:112-122 *)
  | AFootnote id f =>
      let? b := make_footnotes n b (made_with done f) in
      let? l := foot_loc b f in
      Ok match locate KMacroFootnote id (b_nums b) with Some m => set_heap b (put (b_heap b) m "footnote" (One (Some l))) | None => b end
  (* footnotes_manager.py:124-130 *)
  | AFootnotes id l =>
      let? b := make_footnotes n b (flat_map (made_with done) l) in
      let? ls := for_each (foot_loc b) l in
      Ok match locate KFootnotes id (b_nums b) with
         | Some m =>
             let (items, cs) := place (fun _ f => [(mkObj KFootnotesItem (Some m) empty_args empty_context [("footnote", One (Some f))]%string, None : option nat)]) (List.length (b_heap b)) ls in
             set_heap b (put (b_heap b ++ map fst cs) m "footnotes" (Nodes items))
         | None => b
         end
  (* toc_manager.py:161-169 *)
  | AInternal id s => Ok match locate KHeader id (b_nums b) with Some m => set_heap b (put (b_heap b) m "internal_id" (Plain (VStr s))) | None => b end
  (* toc_manager.py:186-199 *)
  | AToc id nested plain =>
      match locate KToc id (b_nums b) with
      | Some m =>
          let (items, cs) := place (toc_cells (header_loc b) m) (List.length (b_heap b)) nested in
          let h := put (b_heap b ++ map fst cs) m "nested_entries" (Nodes items) in
          let? (h, ls) := copy_each n m (map (header_loc b) plain) h in
          Ok (set_heap b (put h m "plain_entries" (Nodes ls)))
      | None => Ok b
      end
  (* header_links_manager.py:49-60 *)
  | AHeader id t _ =>
      match locate KMacroHeader id (b_nums b) with
      | Some m =>
          let h := put (b_heap b) m "header" (One (Some (header_loc b t))) in
          match nodes_in h m "content" with
          | [] => let? (h, ls) := copy_each n m (nodes_in h (header_loc b t) "content") h in Ok (set_heap b (put h m "content" (Nodes ls)))
          | _ => Ok (set_heap b h)
          end
      | None => Ok b
      end
  (* blockgroup_manager.py:52-76 *)
  | AGroup id made items =>
      match locate KBlockGroup id (b_nums b) with
      | Some m =>
          let (b, d) := place_items id made (name_of (b_heap b) m) m b (map fst items) in
          Ok (set_heap b (put (b_heap b) m "items" (Named d)))
      | None => Ok b
      end
  end.
Fixpoint do_assigns (n : nat) (done : list assign) (b : build) (l : list assign) : res build :=
  match l with [] => Ok b | a :: r => let? b := do_assign n done b a in do_assigns n done b r end.

(* The objects of a parsed document; the document is the object 0. *)
Definition heap_of (n : nat) (doc : list dnode * context) (done : list assign) : res heap :=
  let? b := do_assigns n done (build_tree doc done) done in Ok (b_heap b).

(* base_visitor.py:93-110 process, on parser.output.document; the recursion limit is n *)
Definition render_document (hk : hooks) (kw : kwargs) (n : nat) (doc : option (list dnode * context)) (done : list assign) : res data :=
  match doc with
  | None => Ok (hk_none hk)
  | Some d => let? h := heap_of n d done in visit hk kw n h 0
  end.
