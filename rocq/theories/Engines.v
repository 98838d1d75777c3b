(* Engines.v -- the document nodes, and the raw and source block engines. *)
From Verif Require Export Managers.

Definition labels := dict (list inode).

(* arguments, labels and context of a node (nodes/node.py:44-57, 118-131).  A label
   node is its role and its content. *)
Record attrs := mkAttrs { at_args : node_args; at_labels : labels; at_ctx : context }.

(* nodes/source.py:14-45 SourceLineNode, with the value and the context of its marker *)
Record source_line := mkSourceLine {
  sl_number : str; sl_content : str; sl_style : option str; sl_marker : option (str * context); sl_ctx : context }.

(* The nodes of a document.  Parent pointers are not modelled.  The toc, footnotes
   and blockgroup nodes are filled later by the managers: they have a number. *)
Inductive dnode :=
| DRule (a : attrs)
| DHeader (h : header)
| DParagraph (lines : list (list inode * context)) (a : attrs)
| DBlock (classes : list str) (content : list dnode) (a : attrs)
| DRaw (classes : list str) (lines : list (str * context)) (a : attrs)
| DSource (classes : list str) (language : option str) (lines : list source_line) (a : attrs)
| DList (ordered main : bool) (start : Z) (content : list dnode) (a : attrs)
| DItem (level : nat) (content : list inode) (c : context)
| DImage (uri : str) (alt : option str) (classes : list str) (a : attrs)
| DMau (uri : str) (content : list dnode) (a : attrs)
| DIncludeRaw (uri : str) (lines : list (str * context)) (a : attrs)
| DToc (id : nat) (a : attrs)
| DFootnotes (id : nat) (a : attrs)
| DGroup (id : nat) (name : str) (a : attrs)
| DInclude (content_type : str) (a : attrs).

(* node.info.context *)
Definition dnode_ctx (n : dnode) : context :=
  match n with
  | DRule a | DParagraph _ a | DBlock _ _ a | DRaw _ _ a | DSource _ _ _ a | DList _ _ _ _ a | DImage _ _ _ a
  | DMau _ _ a | DIncludeRaw _ _ a | DToc _ a | DFootnotes _ a | DGroup _ _ a | DInclude _ a => at_ctx a
  | DHeader h => h_ctx h
  | DItem _ _ c => c
  end.

Definition no_attrs : attrs := mkAttrs empty_args [] empty_context.

(* named_args.pop(key, default), args.pop *)
Definition pop_arg (a : node_args) (k : str) : option str * node_args :=
  (dget k (na_named a), mkArgs (na_unnamed a) (ddel k (na_named a)) (na_tags a) (na_internal a) (na_subtype a)).
Definition or_else (o : option str) (d : str) : str := match o with Some v => v | None => d end.

(* the context of the n-th line (from 0) of a block content: source.py:101-106,
   raw.py:31-35 *)
Definition line_ctx (c : context) (n : nat) (line : str) : context :=
  mkContext (c_start_line c + n) (c_start_column c) (c_start_line c + n) (c_start_column c + length line) (c_source c).

(* raw.py:15-50 parse_raw_engine, on a non-empty content *)
Definition raw_lines (content : token) : list (str * context) :=
  map (fun nl : nat * str => (snd nl, line_ctx (t_ctx content) (fst nl) (snd nl))) (enumerate_from 0 (split_on NL (t_value content))).

(* str.split(sep) *)
Fixpoint split_sub (sep : str) (skip : nat) (cur s : str) : list str :=
  match s with
  | [] => [cur]
  | c :: r =>
      match skip with
      | S k => split_sub sep k cur r
      | 0 => if startswith sep s then cur :: split_sub sep (length sep - 1) [] r
             else split_sub sep 0 (cur ++ [c]) r
      end
  end.
Definition py_split (sep s : str) : res (list str) :=
  match sep with [] => Exc (ExPy "ValueError") | _ => Ok (split_sub sep 0 [] s) end.

(* source.py:98-179: one line *)
Definition source_line_of (delim prefix default : str) (aliases : dict env_val) (c : context) (n : nat) (line : str)
    : res source_line :=
  let number := str_of_nat (S n) in
  let lctx := line_ctx c n line in
  let plain := mkSourceLine number line None None lctx in
  if negb (endswith delim line) then Ok plain
  else
    let? splits := py_split delim (removelast line) in
    if length splits <? 2 then Ok plain
    else
      let marker := last splits [] in
      let content := join delim (removelast splits) in
      if startswith prefix marker then
        let style := match skipn 1 marker with [] => default | s => s end in
        let style := match dget style aliases with Some v => py_str v | None => style end in
        Ok (mkSourceLine number content (Some style) None lctx)
      else
        match marker with
        | [] => Ok (mkSourceLine number content None None lctx)
        | _ =>
            Ok (mkSourceLine number content None
                  (Some (marker, mkContext (c_start_line lctx) (c_start_column lctx + length content)
                                   (c_end_line lctx) (c_end_column lctx) (c_source lctx)))
                  (mkContext (c_start_line lctx) (c_start_column lctx) (c_end_line lctx)
                     (c_end_column lctx - (length marker + 2)) (c_source lctx)))
        end.

(* source.py:76-78: environment.get(...).asdict() *)
Definition style_aliases (e : env) : res (dict env_val) :=
  match env_get e (lit "mau.parser.source_highlight_style_aliases") with
  | FVal _ => Exc (ExPy "AttributeError")
  | FEnv a => env_asdict a
  | FDefault => Ok []
  end.

(* source.py:43-183 parse_source_engine, on a non-empty content: the language, the
   lines, and the arguments that are left *)
Definition source_block (e : env) (content : token) (a : node_args) : res (str * list source_line * node_args) :=
  let '(delim, a) := pop_arg a (lit "marker_delimiter") in
  let '(prefix, a) := pop_arg a (lit "highlight_marker") in
  let '(default, a) := pop_arg a (lit "highlight_default_style") in
  let? aliases := style_aliases e in
  let '(language, a) := pop_arg (args_set_names a [lit "language"]) (lit "language") in
  let? lines := for_each (fun nl : nat * str =>
      source_line_of (or_else delim (lit ":")) (or_else prefix (lit "@")) (or_else default (lit "default")) aliases
        (t_ctx content) (fst nl) (snd nl)) (enumerate_from 0 (split_on NL (t_value content))) in
  Ok (or_else language (lit "text"), lines, a).
