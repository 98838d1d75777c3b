(* Lexer.v -- mau/lexers/base_lexer.py and the inline lexers *)
From Verif Require Export Token.

(* A lexer function: None when it does not apply, otherwise its tokens and the
   moved buffer; or an exception.  (base_lexer.py:161-165: a function returning
   None has not moved the buffer.) *)
Definition lexfn := tbuf -> res (option (list token * tbuf)).

(* base_lexer.py:20-23 create_lexer_exception *)
Definition lexer_error (text : string) (tb : tbuf) (p : position) : exn :=
  ExMau (MsgLexer text (tb_source tb) p).

(* base_lexer.py:90-124 _create_token_and_skip *)
Definition create_token (tb : tbuf) (ty : token_type) (v : str) : token * tbuf :=
  let tb' := skip tb (length v) in
  (mkToken ty v (mkContext (fst (tb_position tb)) (snd (tb_position tb))
                           (fst (tb_position tb')) (snd (tb_position tb')) (tb_source tb)), tb').

(* base_lexer.py:215-224 _process_eof *)
Definition process_eof : lexfn := fun tb =>
  if tb_eof tb then
    let '(t, tb') := create_token tb T_EOF [] in Ok (Some ([t], tb'))
  else Ok None.

(* base_lexer.py:226-246 _process_empty_line, regexp ^\ *$ on the line *)
Definition process_empty_line : lexfn := fun tb =>
  match rmatch [RRep (N.eqb SP) 0; REnd] (current_line tb) with
  | None => Ok None
  | Some _ =>
      let '(t, tb') := create_token tb T_EOL (current_line tb) in
      Ok (Some ([t], nextline tb'))
  end.

(* base_lexer.py:248-266 _process_trailing_spaces, regexp \ *$ on the tail *)
Definition process_trailing_spaces : lexfn := fun tb =>
  match rmatch [RRep (N.eqb SP) 0; REnd] (tail tb) with
  | None => Ok None
  | Some _ => Ok (Some ([], nextline (skip tb (length (tail tb)))))
  end.

(* base_lexer.py:268-278 _process_text *)
Definition process_text : lexfn := fun tb =>
  let '(t, tb') := create_token tb T_TEXT (tail tb) in
  Ok (Some ([t], nextline tb')).

(* base_lexer.py:208-213 _process_error *)
Definition process_error : lexfn := fun tb =>
  Exc (lexer_error "Cannot process token." tb (tb_position tb)).

(* base_lexer.py:190-200 the for loop over process_functions *)
Fixpoint run_functions (fns : list lexfn) (tb : tbuf) : res (list token * tbuf) :=
  match fns with
  | [] => Ok ([], tb)    (* unreachable: process_error never returns *)
  | f :: fs =>
      let? r := f tb in
      match r with
      | None => run_functions fs tb
      | Some x => Ok x
      end
  end.

(* base_lexer.py:167-173 the full list of functions *)
Definition all_functions (fns : list lexfn) : list lexfn :=
  [process_eof; process_empty_line; process_trailing_spaces] ++ fns ++ [process_error].

(* Lexer state: buffer, tokens so far, last visited position (base_lexer.py:41-57) *)
Record lexst := mkLexst { lx_tb : tbuf; lx_tokens : list token; lx_last : option position }.

Definition position_eqb (p q : position) : bool := (fst p =? fst q) && (snd p =? snd q).

(* base_lexer.py:145-200 _process *)
Definition lex_step (fns : list lexfn) (st : lexst) : res lexst :=
  let pos := tb_position (lx_tb st) in
  if match lx_last st with Some p => position_eqb p pos | None => false end then
    Exc (lexer_error "Loop detected, cannot process context" (lx_tb st) pos)
  else
    let? r := run_functions (all_functions fns) (lx_tb st) in
    Ok (mkLexst (snd r) (lx_tokens st ++ fst r) (Some pos)).

(* base_lexer.py:135-138 the exit test of the loop *)
Definition lex_done (tokens : list token) : bool :=
  match rev tokens with t :: _ => tt_eqb (t_type t) T_EOF | [] => false end.

(* base_lexer.py:126-143 process: _process until the last token is EOF.
   (The first, unconditional _process is the first iteration here: the exit test
   fails on the empty token list.) *)
Fixpoint lex_loop (fuel : nat) (fns : list lexfn) (st : lexst) : res lexst :=
  if lex_done (lx_tokens st) then Ok st
  else match fuel with
       | 0 => Exc ExFuel
       | S f => let? st' := lex_step fns st in lex_loop f fns st'
       end.

(* A bound on the number of steps: one per character and one per line, plus 2. *)
Definition lex_fuel (tb : tbuf) : nat := length (concat_str (tb_lines tb)) + length (tb_lines tb) + 2.

Definition lex_init (tb : tbuf) : lexst := mkLexst tb [] None.

Definition lex (fns : list lexfn) (tb : tbuf) : res (list token) :=
  let? st := lex_loop (lex_fuel tb) fns (lex_init tb) in Ok (lx_tokens st).

(* The current character is one of [cs] (never "": handled by the end of line) *)
Definition cur_in (cs : str) (tb : tbuf) : bool :=
  match current_char tb with
  | Some c => mem_chr c cs
  | None => true                           (* '' in 'abc' is True in Python *)
  end.
Definition cur_str (tb : tbuf) : str := match current_char tb with Some c => [c] | None => [] end.

Definition one_token (tb : tbuf) (ty : token_type) (v : str) : res (option (list token * tbuf)) :=
  let '(t, tb') := create_token tb ty v in Ok (Some ([t], tb')).

(* ---- text_lexer.py ---- *)
(* text_lexer.py:40 the special characters: tilde caret underscore star
   backtick round and square brackets, backslash, double quote, dollar, percent *)
Definition text_specials : str := lit "~^_*`()[]\" ++ [QUOTE] ++ lit "$%".

(* text_lexer.py:21-28 _process_whitespace *)
Definition tl_whitespace : lexfn := fun tb =>
  match rmatch [RRep (N.eqb SP) 1] (tail tb) with
  | None => Ok None
  | Some _ => one_token tb T_TEXT [SP]
  end.

(* text_lexer.py:30-43 _process_literal *)
Definition tl_literal : lexfn := fun tb =>
  if cur_in text_specials tb then one_token tb T_LITERAL (cur_str tb) else Ok None.

(* text_lexer.py:45-60 _process_text: one or more characters that are
   neither special nor a space *)
Definition tl_text : lexfn := fun tb =>
  match rmatch [RRep (fun c => negb (mem_chr c (SP :: text_specials))) 1] (tail tb) with
  | None => Ok None
  | Some cs => one_token tb T_TEXT (group cs 0)
  end.

(* text_lexer.py:62-67 *)
Definition text_lexer_fns : list lexfn := [tl_whitespace; tl_literal; tl_text].
Definition lex_text (tb : tbuf) : res (list token) := lex text_lexer_fns tb.

(* ---- arguments_lexer.py ---- *)
(* arguments_lexer.py:52: backslash, equals, comma, double quote *)
Definition args_specials : str := lit "\=," ++ [QUOTE].

(* arguments_lexer.py:38-45 *)
Definition al_whitespace : lexfn := fun tb =>
  match rmatch [RRep (N.eqb SP) 1] (tail tb) with
  | None => Ok None
  | Some cs => one_token tb T_WHITESPACE (group cs 0)
  end.

(* arguments_lexer.py:47-54 *)
Definition al_literal : lexfn := fun tb =>
  if cur_in args_specials tb then one_token tb T_LITERAL (cur_str tb) else Ok None.

(* arguments_lexer.py:56-64: neither special nor a space *)
Definition al_text : lexfn := fun tb =>
  match rmatch [RRep (fun c => negb (mem_chr c (SP :: args_specials))) 1] (tail tb) with
  | None => Ok None
  | Some cs => one_token tb T_TEXT (group cs 0)
  end.

(* arguments_lexer.py:31-36 *)
Definition args_lexer_fns : list lexfn := [al_whitespace; al_literal; al_text].
Definition lex_args (tb : tbuf) : res (list token) := lex args_lexer_fns tb.

(* ---- preprocess_variables_lexer.py ---- *)
(* preprocess_variables_lexer.py:22 \`{} *)
Definition pre_specials : str := lit "\`{}".

(* preprocess_variables_lexer.py:14-25 *)
Definition pl_literal : lexfn := fun tb =>
  if cur_in pre_specials tb then one_token tb T_LITERAL (cur_str tb) else Ok None.

(* preprocess_variables_lexer.py:27-36 [^\\`{}]+ *)
Definition pl_text : lexfn := fun tb =>
  match rmatch [RRep (fun c => negb (mem_chr c pre_specials)) 1] (tail tb) with
  | None => Ok None
  | Some cs => one_token tb T_TEXT (group cs 0)
  end.

(* preprocess_variables_lexer.py:38-42 *)
Definition pre_lexer_fns : list lexfn := [pl_literal; pl_text].
Definition lex_pre (tb : tbuf) : res (list token) := lex pre_lexer_fns tb.

(* ---- condition_lexer.py ---- *)
Definition is_name_chr (c : N) : bool :=        (* [a-zA-Z0-9_\.\+\-] *)
  is_lower c || is_upper c || is_digit c || mem_chr c (lit "_.+-").

(* condition_lexer.py:29-33 *)
Definition condition_re : list ritem :=
  [RRep is_name_chr 1; RRep (N.eqb SP) 0; RAlt (lit "==") (lit "!=");
   RRep (N.eqb SP) 0; RRep any_chr 0; REnd].

(* condition_lexer.py:17-59: note that it matches the whole current line and
   does not move to the next line *)
Definition cl_condition : lexfn := fun tb =>
  match rmatch condition_re (current_line tb) with
  | None => Ok None
  | Some cs =>
      let '(t1, tb1) := create_token tb T_TEXT (group cs 0) in
      let tb2 := skip tb1 (length (group cs 1)) in
      let '(t2, tb3) := create_token tb2 T_TEXT (group cs 2) in
      let tb4 := skip tb3 (length (group cs 3)) in
      let '(t3, tb5) := create_token tb4 T_TEXT (group cs 4) in
      Ok (Some ([t1; t2; t3], tb5))
  end.

(* condition_lexer.py:11-15 *)
Definition cond_lexer_fns : list lexfn := [cl_condition].
Definition lex_condition (tb : tbuf) : res (list token) := lex cond_lexer_fns tb.
