(* Visitor.v -- mau/nodes/*.py (objects, deepcopy) and mau/visitors/base_visitor.py

   Nodes are mutable objects with pointers to their parent and, in a few classes, to
   nodes that are elsewhere in the document.  The model has a heap: a list of
   objects, whose positions are the references. *)
From Verif Require Export Jinja Token.
From Coq Require Export ZArith String.
From Coq Require Import List.
Import ListNotations.
#[local] Open Scope list_scope.

(* the classes of nodes *)
Inductive kind :=
| KNode | KValue | KWrapper | KLabel | KText | KVerbatim | KWord | KStyle | KHeader
| KMacro | KMacroClass | KMacroLink | KMacroUnicode | KMacroRaw | KMacroImage | KMacroHeader | KMacroFootnote
| KFootnote | KFootnotesItem | KFootnotes | KTocItem | KToc | KBlockGroupItem | KBlockGroup
| KBlock | KRule | KDocument | KInclude | KIncludeImage | KIncludeMau | KIncludeRaw
| KListItem | KList | KParagraph | KParagraphLine | KSourceMarker | KSourceLine | KSource | KRawLine | KRaw | KCondition.

(* the attribute type of each class (nodes/*.py) *)
Definition type_name (k : kind) : str := lit
  match k with
  | KNode => "none" | KValue => "value" | KWrapper => "wrapper" | KLabel => "label" | KText => "text"
  | KVerbatim => "verbatim" | KWord => "word" | KStyle => "style" | KHeader => "header" | KMacro => "macro"
  | KMacroClass => "macro-class" | KMacroLink => "macro-link" | KMacroUnicode => "macro-unicode"
  | KMacroRaw => "macro-raw" | KMacroImage => "macro-image" | KMacroHeader => "macro-header"
  | KMacroFootnote => "macro-footnote" | KFootnote => "footnote" | KFootnotesItem => "footnotes-item"
  | KFootnotes => "footnotes" | KTocItem => "toc-item" | KToc => "toc" | KBlockGroupItem => "blockgroup-item"
  | KBlockGroup => "blockgroup" | KBlock => "block" | KRule => "horizontal-rule" | KDocument => "document"
  | KInclude => "include" | KIncludeImage => "include-image" | KIncludeMau => "include-mau"
  | KIncludeRaw => "include-raw" | KListItem => "list-item" | KList => "list" | KParagraph => "paragraph"
  | KParagraphLine => "paragraph-line" | KSourceMarker => "source-marker" | KSourceLine => "source-line"
  | KSource => "source" | KRawLine => "raw-line" | KRaw => "raw" | KCondition => "condition"
  end.

(* the values of the attributes *)
Inductive value := VNone | VStr (s : str) | VInt (z : Z) | VBool (b : bool) | VStrs (l : list str).
Inductive field := Plain (v : value) | Nodes (l : list nat) | Named (d : list (str * nat)) | One (o : option nat).

(* nodes/node.py:44-60; the other attributes are the fields of the class *)
Record obj := mkObj { o_kind : kind; o_parent : option nat; o_args : node_args; o_ctx : context; o_fields : list (string * field) }.
Definition heap := list obj.

Fixpoint fget (k : string) (l : list (string * field)) : option field :=
  match l with [] => None | (a, v) :: r => if String.eqb k a then Some v else fget k r end.

(* How deepcopy makes an attribute of the new object: the same value (also list(...)
   of strings, and a pointer); a copy of each node of a list or of a dictionary; a
   copy of one node; a copy of one node if there is one. *)
Inductive copy_mode := Same | EachOfList | EachOfDict | TheNode | TheNodeIfAny.

(* The methods deepcopy: node.py:71-81, 110-111, 121-124, 141-144, 160-163, label.py:30-33,
   inline.py:48-57, header.py:61-74, macro.py:76-82, 108-118, 139-149, 174-183, 211-222,
   243-250, footnote.py:40-52, include.py:86-96, 127-139, 166-177, 204-215, 232-239,
   260-272, 296-304, 327-342, 363-372, 399-412, block.py:40-51, document.py:32-39,
   list.py:58-64, 91-104, paragraph.py:31-38, 62-70, source.py:35-45, 74-86, raw.py:37-48,
   condition.py:23-32 *)
Definition copied (k : kind) : list (string * copy_mode) :=
  let content := ("content", EachOfList)%string in
  let labels := ("labels", EachOfDict)%string in
  match k with
  | KNode => []
  | KValue | KText | KVerbatim | KWord | KMacroUnicode | KMacroRaw | KSourceMarker | KRawLine => [("value", Same)]
  | KWrapper | KDocument => [content]
  | KLabel => [content; ("role", Same)]
  | KStyle => [("style", Same); content]
  | KHeader => [("level", Same); ("internal_id", Same); ("name", Same); content; labels]
  | KMacro => [("name", Same)]
  | KMacroClass => [("classes", Same); content]
  | KMacroLink => [("target", Same); content]
  | KMacroImage => [("uri", Same); ("alt_text", Same); ("width", Same); ("height", Same)]
  | KMacroHeader => [("target_name", Same); ("header", Same); content]
  | KMacroFootnote => [("name", Same); ("footnote", Same)]
  | KFootnote => [("name", Same); ("public_id", Same); ("internal_id", Same); content]
  | KFootnotesItem => [("footnote", Same)]
  | KFootnotes => [("footnotes", EachOfList); labels]
  | KTocItem => [("header", Same); ("entries", EachOfList)]
  | KToc => [("plain_entries", EachOfList); ("nested_entries", EachOfList); labels]
  | KBlockGroupItem => [("group", Same); ("position", Same); ("block", TheNode)]
  | KBlockGroup => [("name", Same); ("items", EachOfDict); labels]
  | KBlock => [("classes", Same); content; labels]
  | KRule => [labels]
  | KInclude => [("ctype", Same); labels]
  | KIncludeImage => [("uri", Same); ("alt_text", Same); ("classes", Same); labels]
  | KIncludeMau | KIncludeRaw => [("uri", Same); content; labels]
  | KListItem => [content; ("level", Same)]
  | KList => [("ordered", Same); ("main_node", Same); ("start", Same); content; labels]
  | KParagraph | KParagraphLine => [content; labels]
  | KSourceLine => [("line_number", Same); ("line_content", Same); ("highlight_style", Same); ("marker", TheNodeIfAny)]
  | KSource => [("language", Same); ("classes", Same); content; labels]
  | KRaw => [("classes", Same); content; labels]
  | KCondition => [("variable", Same); ("comparison", Same); ("value", Same)]
  end%string.

(* [child.deepcopy(parent=new) for child in l], and for a dictionary *)
Section Copy.
  Context (cp : heap -> nat -> option nat -> res (heap * nat)).
  Fixpoint copy_list (new : nat) (l : list nat) (h : heap) : res (heap * list nat) :=
    match l with
    | [] => Ok (h, [])
    | c :: r => let? (h1, c') := cp h c (Some new) in let? (h2, r') := copy_list new r h1 in Ok (h2, c' :: r')
    end.
  Fixpoint copy_dict (new : nat) (l : list (str * nat)) (h : heap) : res (heap * list (str * nat)) :=
    match l with
    | [] => Ok (h, [])
    | (k, c) :: r => let? (h1, c') := cp h c (Some new) in let? (h2, r') := copy_dict new r h1 in Ok (h2, (k, c') :: r')
    end.
  Definition copy_field (new : nat) (m : copy_mode) (f : field) (h : heap) : res (heap * field) :=
    match m, f with
    | Same, f => Ok (h, f)
    | EachOfList, Nodes l => let? (h1, l') := copy_list new l h in Ok (h1, Nodes l')
    | EachOfDict, Named d => let? (h1, d') := copy_dict new d h in Ok (h1, Named d')
    | TheNode, One (Some c) | TheNodeIfAny, One (Some c) => let? (h1, c') := cp h c (Some new) in Ok (h1, One (Some c'))
    | TheNodeIfAny, One None => Ok (h, One None)
    | _, _ => Exc (ExPy "AttributeError")
    end.
  Fixpoint copy_fields (new : nat) (o : obj) (rows : list (string * copy_mode)) (h : heap) : res (heap * list (string * field)) :=
    match rows with
    | [] => Ok (h, [])
    | (k, m) :: r =>
        match fget k (o_fields o) with
        | None => Exc (ExPy "AttributeError")
        | Some f => let? (h1, f') := copy_field new m f h in let? (h2, fs) := copy_fields new o r h1 in Ok (h2, (k, f') :: fs)
        end
    end.
End Copy.

Fixpoint update {A} (i : nat) (a : A) (l : list A) : list A :=
  match l, i with [], _ => [] | _ :: r, 0 => a :: r | x :: r, S j => x :: update j a r end.

(* deepcopy: the new object, then its attributes.  n bounds the recursion, as the
   interpreter does.  copy(self.arguments) shares its lists with the original: they
   are values here. *)
Fixpoint deepcopy (n : nat) (h : heap) (l : nat) (parent : option nat) : res (heap * nat) :=
  match n with
  | 0 => Exc (ExPy "RecursionError")
  | S n =>
      match nth_error h l with
      | None => Exc (ExPy "AttributeError")
      | Some o =>
          let new := length h in
          let? (h1, fs) := copy_fields (deepcopy n) new o (copied (o_kind o)) (h ++ [mkObj (o_kind o) parent (o_args o) (o_ctx o) []]) in
          Ok (update new (mkObj (o_kind o) parent (o_args o) (o_ctx o) fs) h1, new)
      end
  end.

(* ------------------------------------------------------------- visitors *)
(* what a visit gives *)
Inductive data := DtV (v : value) | DtC (c : context) | DtL (l : list data) | DtD (d : list (str * data)).
Definition opt_value (o : option str) : value := match o with Some s => VStr s | None => VNone end.

(* the properties custom_template_fields: inline.py:61-64, macro.py:85-88, label.py:36-39,
   include.py:99-102, 375-378, 415-418 *)
Definition custom_names (k : kind) : list string :=
  match k with
  | KStyle => ["style"] | KMacro | KBlockGroup => ["name"] | KLabel => ["role"] | KInclude => ["ctype"] | KBlockGroupItem => ["position"]
  | _ => []
  end%string.
Definition custom_fields (o : obj) : dict str :=
  flat_map (fun k => match fget k (o_fields o) with Some (Plain (VStr s)) => [(lit k, s)] | _ => [] end) (custom_names (o_kind o)).

(* what templates can see (Jinja.v) *)
Definition facet_of (o : obj) : facet := mkFacet (type_name (o_kind o)) (na_subtype (o_args o)) (na_tags (o_args o)) (custom_fields o).
Definition parent_of (h : heap) (o : obj) : option obj := match o_parent o with Some p => nth_error h p | None => None end.
Definition jnode_of (h : heap) (o : obj) : jnode := (facet_of o, option_map facet_of (parent_of h o)).

(* A visitor class.  visit(node) after accept (base_visitor.py:145-171 with the
   transformer, jinja_visitor.py:517-537 with the template; the debug messages are in
   VisitLog.v), visit(None), and visitlist (base_visitor.py:183-185,
   jinja_visitor.py:539-550). *)
Record hooks := mkHooks { hk_finish : jnode -> data -> res data; hk_none : data; hk_list : kind -> list data -> data }.
(* the keyword arguments add_context and add_parent *)
Record kwargs := mkKwargs { kw_context : bool; kw_parent : bool }.

(* base_visitor.py:217-233 _get_node_data *)
Definition node_data (kw : kwargs) (o : obj) : list (str * data) :=
  [(lit "_type", DtV (VStr (type_name (o_kind o))));
   (lit "args", DtV (VStrs (na_unnamed (o_args o))));
   (lit "kwargs", DtD (map (fun kv : str * str => (fst kv, DtV (VStr (snd kv)))) (na_named (o_args o))));
   (lit "tags", DtV (VStrs (na_tags (o_args o))));
   (lit "internal_tags", DtV (VStrs (na_internal (o_args o))));
   (lit "subtype", DtV (opt_value (na_subtype (o_args o))))] ++
  (if kw_context kw then [(lit "_context", DtC (o_ctx o))] else []).
(* base_visitor.py:235-243 _visit_default *)
Definition default_data (kw : kwargs) (h : heap) (o : obj) : list (str * data) :=
  node_data kw o ++
  (if kw_parent kw then [(lit "parent", DtD (match parent_of h o with Some p => node_data kw p | None => [] end))] else []).

(* How a method adds an attribute to the result: as it is, with visitlist, visitdict,
   visit_data, visit. *)
Inductive visit_mode := AsIs | VisitList | VisitDict | VisitData | VisitNode.

(* The methods _visit_...: base_visitor.py:245-692 (node.py:82-104 accept: the classes
   without a method of their own have _visit_default) *)
Definition visited (k : kind) : list (string * string * visit_mode) :=
  let as_is (f : string) := (f, f, AsIs) in
  let content := ("content", "content", VisitList)%string in
  let labels := ("labels", "labels", VisitDict)%string in
  match k with
  | KNode | KCondition => []
  | KValue | KText | KVerbatim | KWord | KMacroUnicode | KMacroRaw | KSourceMarker | KRawLine => [as_is "value"]
  | KWrapper | KDocument => [content]
  | KLabel => [as_is "role"; content]
  | KStyle => [as_is "style"; content]
  | KHeader => [as_is "level"; as_is "internal_id"; as_is "name"; content; labels]
  | KMacro => [as_is "name"]
  | KMacroClass => [as_is "classes"; content]
  | KMacroLink => [as_is "target"; content]
  | KMacroImage => [as_is "uri"; as_is "alt_text"; as_is "width"; as_is "height"]
  | KMacroHeader => [as_is "target_name"; ("header", "header", VisitData); content]
  | KFootnote => [as_is "name"; as_is "public_id"; as_is "internal_id"; content]
  | KMacroFootnote | KFootnotesItem => [("footnote", "footnote", VisitData)]
  | KFootnotes => [("footnotes", "footnotes", VisitList); labels]
  | KTocItem => [("header", "header", VisitData); ("entries", "entries", VisitList)]
  | KToc => [("plain_entries", "plain_entries", VisitList); ("nested_entries", "nested_entries", VisitList); labels]
  | KBlockGroupItem => [as_is "position"; ("block_data", "block", VisitData); ("block", "block", VisitNode)]
  | KBlockGroup => [as_is "name"; ("items", "items", VisitDict); labels]
  | KBlock | KRaw => [as_is "classes"; content; labels]
  | KRule => [labels]
  | KInclude => [as_is "ctype"; labels]
  | KIncludeImage => [as_is "uri"; as_is "alt_text"; as_is "classes"; labels]
  | KIncludeMau | KIncludeRaw => [as_is "uri"; content; labels]
  | KListItem => [as_is "level"; content]
  | KList => [as_is "ordered"; as_is "main_node"; as_is "start"; content; labels]
  | KParagraph | KParagraphLine => [content; labels]
  | KSourceLine => [as_is "line_number"; as_is "line_content"; as_is "highlight_style"; ("marker", "marker", VisitNode)]
  | KSource => [as_is "language"; as_is "classes"; content; labels]
  end%string.

Fixpoint visit_each {A} (f : A -> res data) (l : list A) : res (list data) :=
  match l with
  | [] => Ok []
  | a :: r => let? d := f a in let? ds := visit_each f r in Ok (d :: ds)
  end.

(* one entry of the result; data_of is visit_data and node_of is visit, on a node *)
Definition visit_field (hk : hooks) (k : kind) (data_of node_of : nat -> res data) (m : visit_mode) (f : field) : res data :=
  match m, f with
  | AsIs, Plain v => Ok (DtV v)
  | VisitList, Nodes l => let? ds := visit_each node_of l in Ok (hk_list hk k ds)
  | VisitDict, Named d => let? ds := visit_each (fun kc : str * nat => node_of (snd kc)) d in Ok (DtD (combine (map fst d) ds))
  | VisitData, One None => Ok (DtD [])
  | VisitData, One (Some c) => data_of c
  | VisitNode, One None => Ok (hk_none hk)
  | VisitNode, One (Some c) => node_of c
  | _, _ => Exc (ExPy "AttributeError")
  end.
Fixpoint visit_rows (hk : hooks) (data_of node_of : nat -> res data) (o : obj) (rows : list (string * string * visit_mode))
    : res (list (str * data)) :=
  match rows with
  | [] => Ok []
  | (key, k, m) :: r =>
      match fget k (o_fields o) with
      | None => Exc (ExPy "AttributeError")
      | Some f => let? d := visit_field hk (o_kind o) data_of node_of m f in
                  let? ds := visit_rows hk data_of node_of o r in Ok ((lit key, d) :: ds)
      end
  end.

Definition finish (hk : hooks) (h : heap) (l : nat) (d : data) : res data :=
  match nth_error h l with None => Exc (ExPy "AttributeError") | Some o => hk_finish hk (jnode_of h o) d end.
(* visit_data (node.accept); n bounds the recursion *)
Fixpoint visit_data (hk : hooks) (kw : kwargs) (n : nat) (h : heap) (l : nat) : res data :=
  match n with
  | 0 => Exc (ExPy "RecursionError")
  | S n =>
      match nth_error h l with
      | None => Exc (ExPy "AttributeError")
      | Some o =>
          let data_of := visit_data hk kw n h in
          let node_of c := let? d := visit_data hk kw n h c in finish hk h c d in
          let? rows := visit_rows hk data_of node_of o (visited (o_kind o)) in
          Ok (DtD (default_data kw h o ++ rows))
      end
  end.
(* visit *)
Definition visit (hk : hooks) (kw : kwargs) (n : nat) (h : heap) (l : nat) : res data :=
  let? d := visit_data hk kw n h l in finish hk h l d.

(* base_visitor.py: BaseVisitor, with the transformer of the call.  YamlVisitor
   dumps its result. *)
Definition base_hooks (transformer : data -> data) : hooks := mkHooks (fun _ d => Ok (transformer d)) (DtD []) (fun _ l => DtL l).

(* jinja_visitor.py: JinjaVisitor.  join_with: 332-338 (no class has the type
   raw-content); the rendering of a template by name is jinja2's *)
Definition join_with (k : kind) : str :=
  match k with KDocument | KSource => [10%N] | KParagraph => [32%N] | _ => [] end.
Definition text_of (d : data) : str := match d with DtV (VStr s) => s | _ => [] end.
(* base_visitor.py:16-37, 57-73 create_visitor_exception with a node and its data; the
   data of a node are a dictionary that is not empty *)
Definition visitor_exception (text : string) (node_type : str) (d : data) : exn :=
  match d with
  | DtD l =>
      match dget (lit "_context") l with
      | Some (DtC c) => ExMau (MsgVisitor text (Some (adjust_context c)) (Some node_type))
      | Some _ => ExPy "TypeError"
      | None => ExPy "KeyError"
      end
  | _ => ExPy "TypeError"
  end.
Definition jinja_hooks (v : jvisitor) (render : str -> data -> res str) : hooks :=
  mkHooks (fun j d => let? t := find_template v j (visitor_exception "Cannot find a suitable template." (fc_type (fst j)) d) in let? s := render (tp_name t) d in Ok (DtV (VStr s)))
    (DtV (VStr [])) (fun k l => DtV (VStr (join (join_with k) (map text_of l)))).
