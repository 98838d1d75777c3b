(* TextParser.v -- mau/parsers/text_parser.py *)
From Verif Require Export Args Cond.

(* The inline nodes: nodes/inline.py and nodes/macro.py, each with the context of its
   NodeInfo.  Parent pointers are not modelled.  A header or footnote macro is
   linked later by assigning to the node object: its number stands for the object
   identity (the model counts the macros as they are made). *)
Inductive inode :=
| NWord (v : str) (c : context)
| NText (v : str) (c : context)
| NVerbatim (v : str) (c : context)
| NStyle (style : str) (content : list inode) (c : context)
| NMacro (name : str) (args : node_args) (c : context)
| NClass (classes : list str) (content : list inode) (c : context)
| NLink (target : str) (content : list inode) (c : context)
| NImage (uri : str) (alt width height : option str) (c : context)
| NHeaderLink (id : nat) (target : str) (content : list inode) (c : context)
| NFootnote (id : nat) (name : str) (c : context)
| NUnicode (v : str) (c : context)
| NRaw (v : str) (c : context).

Definition inode_ctx (n : inode) : context :=
  match n with
  | NWord _ c | NText _ c | NVerbatim _ c | NStyle _ _ c | NMacro _ _ c | NClass _ _ c | NLink _ _ c
  | NImage _ _ _ _ c | NHeaderLink _ _ _ c | NFootnote _ _ c | NUnicode _ c | NRaw _ c => c
  end.

(* text_parser.py:45-63: the parser's state *)
Record tx := mkTx { tx_nodes : list inode; tx_foot : list inode; tx_links : list inode; tx_next : nat }.
Definition tx_init (next : nat) : tx := mkTx [] [] [] next.

(* text_parser.py:38 MAP_STYLES *)
Definition map_styles : dict str :=
  [(lit "_", lit "underscore"); (lit "*", lit "star"); (lit "^", lit "caret"); (lit "~", lit "tilde")].

(* itertools.groupby on "is a word", text_parser.py:173-211: consecutive words become
   one text node *)
Definition is_word (n : inode) : bool := match n with NWord _ _ => true | _ => false end.
Definition word_value (n : inode) : str := match n with NWord v _ => v | _ => [] end.
Definition word_group (group : list inode) : list inode :=
  match group with
  | [] => []
  | w :: _ => [NText (concat_str (map word_value group)) (merge_contexts (inode_ctx w) (inode_ctx (last group w)))]
  end.
Fixpoint group_words (group : list inode) (nodes : list inode) : list inode :=
  match nodes with
  | [] => word_group group
  | n :: r => if is_word n then group_words (group ++ [n]) r
              else word_group group ++ n :: group_words [] r
  end.

Definition rpar_tok : token := generate T_LITERAL (lit ")").
Definition macro_stops : list token := [comma_tok; rpar_tok; EOF_tok].
Definition quote_stops : list token := [quote_tok; EOF_tok].

(* text_parser.py:65-130 _collect_macro_args: the loop and the final join.  (The
   commas are never literals here, so the loop always advances.) *)
Fixpoint tp_args_loop (n : nat) : P tx (list token) :=
  match n with
  | 0 => praise ExFuel
  | S n =>
      let* close := is_tv T_LITERAL (lit ")") in
      let* eof := is_ty T_EOF in
      if (close : bool) || (eof : bool) then pret []
      else
        let* quoted := is_tv T_LITERAL Q in
        let* t := (if quoted : bool then
                     let* o := get_tv T_LITERAL Q in
                     let* t := pcollect_join quote_stops [] false in
                     let* c := get_tv T_LITERAL Q in
                     pret (mkToken T_TEXT (Q ++ t_value t ++ Q) (merge_contexts (t_ctx o) (t_ctx c)))
                   else pcollect_join macro_stops [] false) in
        let* rest := tp_args_loop n in
        pret (t :: rest)
  end.
Definition tp_macro_args : P tx token := fun s =>
  (let* ts := tp_args_loop (S (length (fst s))) in pret (from_token_list ts [])) s.

(* A new parser on a value of the arguments (self.lex_and_parse): it gives the
   nodes only, what it registered is dropped. *)
Definition nest_fn := str -> origin -> P tx (list inode).

Definition named_arg (p : parsed_args) (name : string) : option token := dget (lit name) (pa_named p).
Definition needed (p : parsed_args) (name : string) (msg : string) (c : context) : P tx token :=
  match named_arg p name with Some t => pret t | None => praise (parser_error msg (Some c)) end.

(* text_parser.py:463-519 and 571-623: the text of a link, or its target *)
Definition tp_link_content (nest : nest_fn) (target : token) (text : option token) : P tx (list inode) :=
  match text with
  | Some t => nest (t_value t) (origin_of t)
  | None => pret [NText (t_value target) (t_ctx target)]
  end.

(* text_parser.py:463-519 _parse_macro_link *)
Definition tp_link (nest : nest_fn) (p0 : parsed_args) (c : context) : P tx (list inode) :=
  let p := pa_set_names p0 [lit "target"; lit "text"] in
  let* target := needed p "target" "Missing mandatory TARGET. Syntax: [link](TARGET, text)." c in
  let* nodes := tp_link_content nest target (named_arg p "text") in
  pret [NLink (t_value target) nodes c].

(* text_parser.py:521-569 _parse_macro_header_link *)
Definition tp_header_link (nest : nest_fn) (p0 : parsed_args) (c : context) : P tx (list inode) :=
  let p := pa_set_names p0 [lit "header_id"; lit "text"] in
  let* target := needed p "header_id" "Missing mandatory ID. Syntax: [header](ID, TEXT)." c in
  let* nodes := match named_arg p "text" with Some t => nest (t_value t) (origin_of t) | None => pret [] end in
  let* x := pget in
  let node := NHeaderLink (tx_next x) (t_value target) nodes c in
  pmod (fun x => mkTx (tx_nodes x) (tx_foot x) (tx_links x ++ [node]) (S (tx_next x))) ;;;
  pret [node].

(* text_parser.py:571-623 _parse_macro_mailto *)
Definition tp_mailto (nest : nest_fn) (p0 : parsed_args) (c : context) : P tx (list inode) :=
  let p := pa_set_names p0 [lit "email"; lit "text"] in
  let* target := needed p "email" "Missing mandatory EMAIL. Syntax: [mailto](EMAIL, text)." c in
  let* nodes := tp_link_content nest target (named_arg p "text") in
  pret [NLink (lit "mailto:" ++ t_value target) nodes c].

(* text_parser.py:625-668 _parse_macro_class *)
Definition tp_class (nest : nest_fn) (p0 : parsed_args) (c : context) : P tx (list inode) :=
  let p := pa_set_names p0 [lit "text"] in
  let classes := map t_value (pa_unnamed p) in
  let* text := needed p "text" "Missing mandatory TEXT. Syntax: [class](TEXT, class1, class2, ...)." c in
  let* nodes := nest (t_value text) (origin_of text) in
  pret [NClass classes nodes c].

(* text_parser.py:670-694 _parse_macro_unicode and 696-718 _parse_macro_raw *)
Definition tp_unicode (p0 : parsed_args) (c : context) : P tx (list inode) :=
  let* v := needed (pa_set_names p0 [lit "value"]) "value" "Missing mandatory VALUE. Syntax: [unicode](VALUE)." c in
  pret [NUnicode (t_value v) c].
Definition tp_raw (p0 : parsed_args) (c : context) : P tx (list inode) :=
  let* v := needed (pa_set_names p0 [lit "value"]) "value" "Missing mandatory VALUE. Syntax: [raw](VALUE)." c in
  pret [NRaw (t_value v) c].

(* text_parser.py:720-760 _parse_macro_image *)
Definition tp_image (p0 : parsed_args) (c : context) : P tx (list inode) :=
  let p := pa_set_names p0 [lit "uri"; lit "alt_text"; lit "width"; lit "height"] in
  let* uri := needed p "uri" "Missing mandatory URI. Syntax: [image](URI, alt_text, width, height)." c in
  pret [NImage (t_value uri) (option_map t_value (named_arg p "alt_text")) (option_map t_value (named_arg p "width"))
         (option_map t_value (named_arg p "height")) c].

(* text_parser.py:762-792 _parse_macro_footnote *)
Definition tp_footnote (p0 : parsed_args) (c : context) : P tx (list inode) :=
  let* name := needed (pa_set_names p0 [lit "name"]) "name" "Missing mandatory NAME. Syntax: [footnote](NAME)." c in
  let* x := pget in
  let node := NFootnote (tx_next x) (t_value name) c in
  pmod (fun x => mkTx (tx_nodes x) (tx_foot x ++ [node]) (tx_links x) (S (tx_next x))) ;;;
  pret [node].

(* The text of a variable that is parsed by ifeval.  Simplified: a value that is
   not text, and not an empty list, has no split(). *)
Definition ifeval_text (e : env) (name : str) (c : context) : res str :=
  match env_get e name with
  | FVal (EStr s) => Ok s
  | FVal (EList []) => Ok []
  | FDefault => Exc (parser_error "Variable has not been defined." (Some c))
  | FVal _ | FEnv _ => Exc (ExPy "AttributeError")
  end.

(* text_parser.py:794-937 _parse_macro_control *)
Definition tp_control (e : env) (nest : nest_fn) (name : token) (p0 : parsed_args) (c : context) : P tx (list inode) :=
  match split_on (chr ":") (t_value name) with
  | [operator; cond] =>
      if negb (mem_str operator [lit "if"; lit "ifeval"])
      then praise (parser_error "Control operator is not supported." (Some c))
      else
        let o := mkOrigin (c_start_line (t_ctx name)) (c_start_column (t_ctx name) + 4) (c_source (t_ctx name)) in
        let cctx := mkContext (c_start_line (t_ctx name)) (c_start_column (t_ctx name) + 4)
                      (c_end_line (t_ctx name)) (c_end_column (t_ctx name)) (c_source (t_ctx name)) in
        let* node := match parse_condition cond o with
                     | Ok (Some n) => pret n
                     | Ok None => praise (ExPy "AttributeError")
                     | Exc (ExMau _) => praise (parser_error "Wrong condition syntax." (Some cctx))
                     | Exc ex => praise ex
                     end in
        let* ctl := plift (new_control (lit "if") (cn_variable node) (cn_comparison node) (cn_value node) (t_ctx name)) in
        let p := pa_set_names p0 [lit "true_case"; lit "false_case"] in
        let* true_case := needed p "true_case" "Control macro is missing the mandatory value for the true case." c in
        let* test := plift (run_control e ctl) in
        let result := if test : bool then Some true_case else named_arg p "false_case" in
        let* result :=
          (if str_eqb operator (lit "ifeval") then
             match result with
             | None => praise (parser_error "The test result is negative but no value has been defined for that case." (Some c))
             | Some t => let* v := plift (ifeval_text e (t_value t) c) in pret (Some (vnode v (t_ctx t)))
             end
           else pret result) in
        match result with
        | None => pret []
        | Some t => nest (t_value t) (origin_of t)
        end
  | _ => praise (parser_error "Macro name must be in the form 'operator:condition'." (Some c))
  end.

(* text_parser.py:267-366 _parse_macro *)
Definition tp_macro (e : env) (nest : nest_fn) : P tx (list inode) :=
  let* o := get_tv T_LITERAL (lit "[") in
  let* name := get_ty T_TEXT in
  get_tv T_LITERAL (lit "]") ;;;
  get_tv T_LITERAL (lit "(") ;;;
  let* argt := tp_macro_args in
  let* cl := get_tv T_LITERAL (lit ")") in
  let* p := plift (process_arguments e argt) in
  let c := merge_contexts (t_ctx o) (t_ctx cl) in
  let n := t_value name in
  if startswith (lit "if") n then tp_control e nest name p c
  else if str_eqb n (lit "link") then tp_link nest p c
  else if str_eqb n (lit "header") then tp_header_link nest p c
  else if str_eqb n (lit "mailto") then tp_mailto nest p c
  else if str_eqb n (lit "image") then tp_image p c
  else if str_eqb n (lit "footnote") then tp_footnote p c
  else if str_eqb n (lit "class") then tp_class nest p c
  else if str_eqb n (lit "unicode") then tp_unicode p c
  else if str_eqb n (lit "raw") then tp_raw p c
  else pret [NMacro n (arguments_of p) c].

(* text_parser.py:241-265 _parse_backslash_escaped *)
Definition tp_backslash : P tx (list inode) :=
  let* b := get_tv T_LITERAL BSL in
  let* t := get_tok in
  pret [NWord (t_value t) (merge_contexts (t_ctx b) (t_ctx t))].

(* text_parser.py:368-393 _parse_verbatim *)
Definition tick_stops : list token := [generate T_LITERAL TICK; EOL_tok].
Definition tp_verbatim : P tx (list inode) :=
  let* o := get_tv T_LITERAL TICK in
  let* t := pcollect_join tick_stops [] false in
  let* c := get_tv T_LITERAL TICK in
  pret [NVerbatim (t_value t) (merge_contexts (t_ctx o) (t_ctx c))].

(* text_parser.py:395-427 _parse_escaped; the substrings of the two markers *)
Definition is_escape_mark (v : str) : bool := mem_str v [[]; lit "$"; lit "%"; lit "$%"].
Definition marker_stops (m : str) : list token := [generate T_LITERAL m; EOL_tok].
Definition tp_escaped : P tx (list inode) :=
  let* o := pget_token (Some T_LITERAL) None (Some is_escape_mark) in
  let* t := pcollect_join (marker_stops (t_value o)) [] false in
  let* c := get_tv T_LITERAL (t_value o) in
  pret [NText (t_value t) (merge_contexts (t_ctx o) (t_ctx c))].

(* text_parser.py:429-464 _parse_style; [words] is the loop of _parse_sentence *)
Definition style_stops (m : str) : list token := [generate T_LITERAL m; EOF_tok; EOL_tok].
Definition tp_style (words : list token -> P tx (list inode)) : P tx (list inode) :=
  let* o := pget_token (Some T_LITERAL) None (Some (fun v => dmem v map_styles)) in
  let* content := words (style_stops (t_value o)) in
  let* c := get_tv T_LITERAL (t_value o) in
  let style := match dget (t_value o) map_styles with Some s => s | None => [] end in
  pret [NStyle style (group_words [] content) (merge_contexts (t_ctx o) (t_ctx c))].

(* text_parser.py:466-480 _parse_word *)
Definition tp_word : P tx (list inode) :=
  let* t := get_tok in pret [NWord (t_value t) (t_ctx t)].

(* text_parser.py:213-239 _parse_text, after the check of the stop tokens: the first
   function that does not raise a TokenError *)
Fixpoint tp_first (fs : list (P tx (list inode))) (last : P tx (list inode)) : P tx (list inode) :=
  match fs with
  | [] => last
  | f :: rest => let* r := pwith f in match r with Some nodes => pret nodes | None => tp_first rest last end
  end.
Definition tp_item (e : env) (nest : nest_fn) (words : list token -> P tx (list inode)) : P tx (list inode) :=
  tp_first [tp_backslash; tp_macro e nest; tp_verbatim; tp_escaped; tp_style words] tp_word.

(* text_parser.py:148-171 the loop of _parse_sentence, which stops as soon as
   _parse_text gives no nodes.  The bound n is enough when it exceeds the number of
   the tokens. *)
Fixpoint tp_words (e : env) (nest : nest_fn) (n : nat) (stops : list token) : P tx (list inode) :=
  match n with
  | 0 => praise ExFuel
  | S n =>
      let* t := ppeek None None None in
      if token_in t stops then pret []
      else
        let* nodes := tp_item e nest (tp_words e nest n) in
        match nodes with
        | [] => pret []
        | _ => let* rest := tp_words e nest n stops in pret (nodes ++ rest)
        end
  end.
Definition text_stops : list token := [EOF_tok; EOL_tok].

(* text_parser.py:139-146 _process_sentence *)
Definition tp_sentence (e : env) (nest : nest_fn) : P tx bool := fun s =>
  (let* nodes := tp_words e nest (S (length (fst s))) text_stops in
   pmod (fun x => mkTx (tx_nodes x ++ group_words [] nodes) (tx_foot x) (tx_links x) (tx_next x)) ;;;
   pret true) s.

(* TextParser.lex_and_parse.  [depth] bounds the parsers inside parsers, as the
   interpreter does: ifeval can parse the same text again and again. *)
Fixpoint tp_run (depth : nat) (e : env) (text : str) (o : origin) (next : nat) : res tx :=
  match depth with
  | 0 => Exc (ExPy "RecursionError")
  | S d =>
      let nest : nest_fn := fun text o s =>
        match tp_run d e text o (tx_next (snd s)) with
        | Ok x => let x0 := snd s in
                  ((fst s, mkTx (tx_nodes x0) (tx_foot x0) (tx_links x0) (tx_next x)), Ok (tx_nodes x))
        | Exc ex => (s, Exc ex)
        end in
      prun (lex_text (buffer text o)) (tx_init next) [tp_sentence e nest]
  end.

(* The nodes of a text; enough depth for every text without ifeval (see
   PropertiesText.v) *)
Definition parse_text (e : env) (text : str) (o : origin) : res (list inode) :=
  rmap tx_nodes (tp_run (S (length text)) e text o 0).

Definition o0 : origin := mkOrigin 0 0 None.
Definition show (text : string) := parse_text [] (lit text) o0.
