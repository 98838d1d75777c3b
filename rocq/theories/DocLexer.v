(* DocLexer.v -- mau/lexers/document_lexer.py *)
From Verif Require Export Lexer.

Definition four_slashes : str := lit "////".

(* document_lexer.py:47-66: the search loop of a multiline comment.  [n] bounds
   the number of lines left; the loop ends at EOF at the latest. *)
Fixpoint skip_to_slashes (n : nat) (err : exn) (tb : tbuf) : res tbuf :=
  if tb_eof tb then Exc err
  else if str_eqb (current_line tb) four_slashes then Ok tb
  else match n with
       | 0 => Exc ExFuel
       | S n' => skip_to_slashes n' err (nextline tb)
       end.

(* document_lexer.py:30-72 _process_multiline_comment *)
Definition dl_multiline_comment : lexfn := fun tb =>
  if negb (str_eqb (current_line tb) four_slashes) then Ok None
  else
    let err := lexer_error "Unclosed multiline comment." tb (tb_position tb) in
    let? tb' := skip_to_slashes (S (length (tb_lines tb))) err (nextline tb) in
    Ok (Some ([], nextline tb')).

(* document_lexer.py:74-88 _process_comment *)
Definition dl_comment : lexfn := fun tb =>
  match rmatch [RLit (lit "//"); RRep any_chr 0] (current_line tb) with
  | None => Ok None
  | Some _ => Ok (Some ([], nextline tb))
  end.

(* document_lexer.py:90-110 _process_horizontal_rule *)
Definition dl_horizontal_rule : lexfn := fun tb =>
  match rmatch [RLit (lit "---"); REnd] (current_line tb) with
  | None => Ok None
  | Some _ =>
      let '(t, tb') := create_token tb T_HORIZONTAL_RULE (current_line tb) in
      Ok (Some ([t], nextline tb'))
  end.

(* document_lexer.py:117-125: exactly four characters matching ^(.)\1{3}$ *)
Definition is_fence (s : str) : bool :=
  match s with
  | [a; b; c; d] => any_chr a && N.eqb a b && N.eqb a c && N.eqb a d
  | _ => false
  end.

(* document_lexer.py:146-168: collect the lines up to the closing delimiter *)
Fixpoint block_lines (n : nat) (err : exn) (delim : str) (tb : tbuf) : res (list str * tbuf) :=
  if tb_eof tb then Exc err
  else if str_eqb (current_line tb) delim then Ok ([], tb)
  else match n with
       | 0 => Exc ExFuel
       | S n' =>
           let? r := block_lines n' err delim (nextline tb) in
           Ok (current_line tb :: fst r, snd r)
       end.

(* document_lexer.py:112-208 _process_block *)
Definition dl_block : lexfn := fun tb =>
  if negb (is_fence (current_line tb)) then Ok None
  else
    let '(delimiter, tb1) := create_token tb T_BLOCK (current_line tb) in
    let tb2 := nextline tb1 in
    let initial := tb_position tb2 in
    let err := lexer_error "Unclosed block." tb
                 (c_start_line (t_ctx delimiter), c_start_column (t_ctx delimiter)) in
    let? r := block_lines (S (length (tb_lines tb))) err (t_value delimiter) tb2 in
    let text_lines := fst r in
    let tb3 := snd r in
    let content :=
      match text_lines with
      | [] => []
      | _ =>
          [mkToken T_TEXT (join [NL] text_lines)
             (mkContext (fst initial) (snd initial)
                (fst initial + length text_lines - 1)
                (snd initial + length (last text_lines []))
                (tb_source tb))]
      end in
    let '(closing, tb4) := create_token tb3 T_BLOCK (current_line tb3) in
    (* document_lexer.py:200-203: rebuilt with the same value and context *)
    let closing' := mkToken T_BLOCK (current_line tb4) (t_ctx closing) in
    Ok (Some (delimiter :: content ++ [closing'], nextline tb4)).

(* document_lexer.py:216-224 *)
Definition control_re : list ritem :=
  [RLit (lit "@"); RRep is_lower 1; RRep (N.eqb SP) 0; RRep any_chr 0; REnd].

(* document_lexer.py:210-252 _process_control *)
Definition dl_control : lexfn := fun tb =>
  match rmatch control_re (current_line tb) with
  | None => Ok None
  | Some cs =>
      let '(t1, tb1) := create_token tb T_CONTROL (group cs 0) in
      let '(t2, tb2) := create_token tb1 T_TEXT (group cs 1) in
      let tb3 := skip tb2 (length (group cs 2)) in
      let '(t3, tb4) := create_token tb3 T_TEXT (group cs 3) in
      Ok (Some ([t1; t2; t3], nextline tb4))
  end.

(* [a-z0-9_#\.] *)
Definition is_include_chr (c : N) : bool := is_lower c || is_digit c || mem_chr c (lit "_#.").

(* document_lexer.py:266-269 *)
Definition include_re : list ritem :=
  [RLit (lit "<<"); RRep (N.eqb SP) 0; RRep is_include_chr 1; ROpt (lit ":"); RRep any_chr 0].

(* [if separator: tokens.append(...)]: the group is kept when non-empty *)
Definition keep_if (v : str) (t : token) : list token := match v with [] => [] | _ => [t] end.

(* document_lexer.py:254-303 _process_include *)
Definition dl_include : lexfn := fun tb =>
  match rmatch include_re (current_line tb) with
  | None => Ok None
  | Some cs =>
      let '(t1, tb1) := create_token tb T_INCLUDE (group cs 0) in
      let tb2 := skip tb1 (length (group cs 1)) in
      let '(t2, tb3) := create_token tb2 T_TEXT (group cs 2) in
      let '(t3, tb4) := create_token tb3 T_LITERAL (group cs 3) in
      let '(t4, tb5) := create_token tb4 T_TEXT (group cs 4) in
      Ok (Some ([t1; t2] ++ keep_if (group cs 3) t3 ++ keep_if (group cs 4) t4, nextline tb5))
  end.

(* document_lexer.py:315-318 *)
Definition variable_re : list ritem :=
  [RLit (lit ":"); RRep is_name_chr 1; ROpt (lit ":"); RRep any_chr 0].

(* document_lexer.py:305-350 _process_variable *)
Definition dl_variable : lexfn := fun tb =>
  match rmatch variable_re (current_line tb) with
  | None => Ok None
  | Some cs =>
      let '(t1, tb1) := create_token tb T_VARIABLE (group cs 0) in
      let '(t2, tb2) := create_token tb1 T_TEXT (group cs 1) in
      let '(t3, tb3) := create_token tb2 T_LITERAL (group cs 2) in
      let '(t4, tb4) := create_token tb3 T_TEXT (group cs 3) in
      Ok (Some ([t1; t2] ++ keep_if (group cs 2) t3 ++ keep_if (group cs 3) t4, nextline tb4))
  end.

(* document_lexer.py:358-361 *)
Definition arguments_re : list ritem :=
  [RLit (lit "["); RRep any_chr 0; RLit (lit "]"); REnd].

(* document_lexer.py:352-386 _process_arguments *)
Definition dl_arguments : lexfn := fun tb =>
  match rmatch arguments_re (current_line tb) with
  | None => Ok None
  | Some cs =>
      let '(t1, tb1) := create_token tb T_ARGUMENTS (group cs 0) in
      let '(t2, tb2) := create_token tb1 T_TEXT (group cs 1) in
      let '(t3, tb3) := create_token tb2 T_LITERAL (group cs 2) in
      Ok (Some ([t1; t2; t3], nextline tb3))
  end.

(* [a-z0-9-_] *)
Definition is_label_chr (c : N) : bool := is_lower c || is_digit c || mem_chr c (lit "-_").

(* document_lexer.py:396-399: the prefix group is \.[a-z0-9-_]*, split here in
   two adjacent items whose captures are concatenated *)
Definition label_re : list ritem :=
  [RLit (lit "."); RRep is_label_chr 0; RRep (N.eqb SP) 0; RRep any_chr 0].

(* document_lexer.py:388-423 _process_label *)
Definition dl_label : lexfn := fun tb =>
  match rmatch label_re (current_line tb) with
  | None => Ok None
  | Some cs =>
      let '(t1, tb1) := create_token tb T_LABEL (group cs 0 ++ group cs 1) in
      let tb2 := skip tb1 (length (group cs 2)) in
      let '(t2, tb3) := create_token tb2 T_TEXT (group cs 3) in
      Ok (Some ([t1; t2], nextline tb3))
  end.

(* [\*#] *)
Definition is_list_chr (c : N) : bool := mem_chr c (lit "*#").

(* document_lexer.py:439-442 *)
Definition list_re : list ritem :=
  [RRep (N.eqb SP) 0; RRep is_list_chr 1; RRep (N.eqb SP) 1; RRep any_chr 0].

(* document_lexer.py:425-468 _process_list *)
Definition dl_list : lexfn := fun tb =>
  match rmatch list_re (current_line tb) with
  | None => Ok None
  | Some cs =>
      let tb1 := skip tb (length (group cs 0)) in
      let '(t1, tb2) := create_token tb1 T_LIST (group cs 1) in
      let tb3 := skip tb2 (length (group cs 2)) in
      let '(t2, tb4) := create_token tb3 T_TEXT (group cs 3) in
      Ok (Some ([t1; t2], nextline tb4))
  end.

(* document_lexer.py:480-482 *)
Definition header_re : list ritem :=
  [RRep (N.eqb EQUALS) 1; RRep (N.eqb SP) 0; RRep any_chr 1].

(* document_lexer.py:470-503 _process_header *)
Definition dl_header : lexfn := fun tb =>
  match rmatch header_re (current_line tb) with
  | None => Ok None
  | Some cs =>
      let '(t1, tb1) := create_token tb T_HEADER (group cs 0) in
      let tb2 := skip tb1 (length (group cs 1)) in
      let '(t2, tb3) := create_token tb2 T_TEXT (group cs 2) in
      Ok (Some ([t1; t2], nextline tb3))
  end.

(* document_lexer.py:12-28 _process_functions *)
Definition doc_lexer_fns : list lexfn :=
  [dl_multiline_comment; dl_comment; dl_horizontal_rule; dl_block; dl_control; dl_include;
   dl_variable; dl_arguments; dl_label; dl_list; dl_header; process_text].

Definition lex_document (tb : tbuf) : res (list token) := lex doc_lexer_fns tb.

(* Reading aid: types and values only. *)
Definition shape (r : res (list token)) : res (list (token_type * str)) :=
  rmap (map (fun t => (t_type t, t_value t))) r.
