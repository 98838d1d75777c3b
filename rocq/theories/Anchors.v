(* Anchors.v -- the ids that Mau makes for headers and footnotes *)
From Verif Require Export DocParser.

(* toc_manager.py:14-22 extract_text.  The nodes with a value (ValueNode) are those of
   inline.py (words, texts, verbatim), MacroUnicodeNode and MacroRawNode; those with a
   content (NodeContentMixin) are StyleNode and the macros class, link and header. *)
Fixpoint extract_text (n : inode) : str :=
  match n with
  | NWord v _ => v
  | NText v _ => v
  | NVerbatim v _ => v
  | NUnicode v _ => v
  | NRaw v _ => v
  | NStyle _ content _ => flat_map extract_text content
  | NClass _ content _ => flat_map extract_text content
  | NLink _ content _ => flat_map extract_text content
  | NHeaderLink _ _ content _ => flat_map extract_text content
  | NMacro _ _ _ => []
  | NImage _ _ _ _ _ => []
  | NFootnote _ _ _ => []
  end.

(* toc_manager.py:35-39: text.lower(), of which only the characters [a-z0-9-. ] are
   kept.  Of the characters that are not ASCII, two have one of these in lower case: the
   capital I with a dot (U+0130) and the Kelvin sign (U+212A). *)
Definition kept_chr (c : N) : bool := is_lower c || is_digit c || mem_chr c (lit "-. ").
Definition lower_chars (c : N) : str :=
  if is_upper c then [(c + 32)%N] else if (c =? 304)%N then [105%N; 775%N] else if (c =? 8490)%N then [107%N] else [c].
Definition kept_text (text : str) : str := filter kept_chr (flat_map lower_chars text).

(* toc_manager.py:41-42: re.sub of the runs of spaces and underscores *)
Definition blank_chr (c : N) : bool := mem_chr c (lit " _").
Fixpoint dashes (inside : bool) (s : str) : str :=
  match s with
  | [] => []
  | c :: r => if blank_chr c then (if inside then [] else lit "-") ++ dashes true r else c :: dashes false r
  end.

(* toc_manager.py:25-61 default_header_internal_id.  The hexadecimal MD5 hash of a text
   is a parameter. *)
Definition default_header_id (md5 : str -> str) (h : header) : str :=
  let text := flat_map extract_text (h_content h) in
  dashes false (kept_text text) ++ lit "-" ++ firstn 4 (md5 (str_of_nat (h_level h) ++ lit " " ++ text)).

(* footnotes_manager.py:12-19 default_footnote_unique_id *)
Definition default_footnote_id (f : footnote copy) : str := fn_name f.

(* a configuration that has no functions of its own: toc_manager.py:125-127 and
   footnotes_manager.py:50-52 *)
Definition default_config (md5 : str -> str) (cf : config) : config :=
  mkConfig (cf_files cf) (default_header_id md5) default_footnote_id (cf_depth cf).
