(* Preproc.v -- mau/parsers/preprocess_variables_parser.py *)
From Verif Require Export P Lexer Env.

(* where a text comes from: start line and column, source name *)
Record origin := mkOrigin { o_line : nat; o_column : nat; o_source : option str }.
(* the start_position and the source of a token's context *)
Definition origin_of (t : token) : origin :=
  mkOrigin (c_start_line (t_ctx t)) (c_start_column (t_ctx t)) (c_source (t_ctx t)).
Definition buffer (text : str) (o : origin) : tbuf := tb_init text (o_line o) (o_column o) (o_source o).

(* str(value).  Simplified: the items of a list are quoted without escaping. *)
Definition py_str (v : env_val) : str :=
  match v with
  | EStr s => s
  | EList l => lit "[" ++ join (lit ", ") (map (fun s => lit "'" ++ s ++ lit "'") l) ++ lit "]"
  | EOther r => r
  | EDict _ => lit "{}"                   (* only an empty dictionary is a leaf *)
  end.

(* The nodes of this parser are TextNodes with a value and a context: they are kept
   as TEXT tokens (which get_processed_text makes of them). *)
Notation pp_state := (list token).
Definition pp_save (v : str) (c : context) : P pp_state unit :=
  pmod (fun nodes => nodes ++ [mkToken T_TEXT v c]).

Definition LB : str := lit "{".
Definition RB : str := lit "}".
Definition TICK : str := lit "`".
Definition BSL : str := [BS].

(* preprocess_variables_parser.py:16-46 _process_escaped_char.  The value is a
   substring of the two braces; the token's value is then changed in place, which
   nobody sees because the token is never read again. *)
Definition pp_escaped : P pp_state bool :=
  let* bsl := get_tv T_LITERAL BSL in
  let* c := get_tok in
  let v := if mem_str (t_value c) [[]; LB; RB; LB ++ RB] then t_value c else BSL ++ t_value c in
  pp_save v (merge_contexts (t_ctx bsl) (t_ctx c)) ;;; pret true.

(* preprocess_variables_parser.py:48-83 _process_verbatim *)
Definition pp_verbatim : P pp_state bool :=
  let* o := get_tv T_LITERAL TICK in
  let* t := pcollect_join [generate T_LITERAL TICK] [] true in
  let* c := get_tv T_LITERAL TICK in
  pp_save (TICK ++ t_value t ++ TICK) (merge_contexts (t_ctx o) (t_ctx c)) ;;; pret true.

(* preprocess_variables_parser.py:85-165 _process_curly *)
Definition pp_curly (e : env) : P pp_state bool :=
  let* o := get_tv T_LITERAL LB in
  let* name := pcollect_join [generate T_LITERAL RB] [] false in
  let* c := get_tv T_LITERAL RB in
  if startswith LB (t_value name) then
    let* again := is_tv T_LITERAL RB in
    if again : bool then
      let* ac := get_tv T_LITERAL RB in
      pp_save (t_value name ++ RB) (merge_contexts (t_ctx o) (t_ctx ac)) ;;; pret true
    else praise (parser_error "Incomplete variable declaration. Variable names cannot contain curly braces." (Some (t_ctx name)))
  else
    match dget (t_value name) e with
    | Some v => pp_save (py_str v) (merge_contexts (t_ctx o) (t_ctx c)) ;;; pret true
    | None => praise (parser_error "Variable has not been defined." (Some (merge_contexts (t_ctx o) (t_ctx c))))
    end.

(* preprocess_variables_parser.py:167-181 _process_pass *)
Definition pp_pass : P pp_state bool :=
  let* t := get_tok in pp_save (t_value t) (t_ctx t) ;;; pret true.

(* preprocess_variables_parser.py:183-189 *)
Definition pp_fns (e : env) : list (P pp_state bool) := [pp_escaped; pp_verbatim; pp_curly e; pp_pass].

(* lex_and_parse and get_processed_text (:191-212) *)
Definition preprocess (e : env) (text : str) (o : origin) : res token :=
  let? nodes := prun (lex_pre (buffer text o)) [] (pp_fns e) in
  Ok (from_token_list nodes []).
