(* Token.v -- mau/token.py and mau/text_buffer.py *)
From Verif Require Export Regex.

(* mau/token.py:8-29 class TokenType *)
Inductive token_type :=
| T_ARGUMENTS | T_BLOCK | T_COMMENT | T_CONTROL | T_EMPTY | T_EOF | T_EOL | T_HEADER
| T_HORIZONTAL_RULE | T_INCLUDE | T_LIST | T_LITERAL | T_MULTILINE_COMMENT | T_TEXT
| T_LABEL | T_VARIABLE | T_WHITESPACE.

Definition token_type_eq_dec (a b : token_type) : {a = b} + {a <> b}.
Proof. decide equality. Defined.
Definition tt_eqb (a b : token_type) : bool := if token_type_eq_dec a b then true else false.

Lemma tt_eqb_spec a b : reflect (a = b) (tt_eqb a b).
Proof. unfold tt_eqb; destruct (token_type_eq_dec a b); constructor; assumption. Qed.

Lemma tt_eqb_refl a : tt_eqb a a = true.
Proof. destruct (tt_eqb_spec a a); congruence. Qed.

(* mau/token.py:32-46 class Token *)
Record token := mkToken { t_type : token_type; t_value : str; t_ctx : context }.

(* mau/token.py:48-51 Token.generate *)
Definition generate (ty : token_type) (v : str) : token := mkToken ty v empty_context.

(* mau/token.py:124-131 Token.__eq__: type and value only *)
Definition token_eqb (a b : token) : bool :=
  tt_eqb (t_type a) (t_type b) && str_eqb (t_value a) (t_value b).

Lemma token_eqb_spec a b :
  token_eqb a b = true <-> t_type a = t_type b /\ t_value a = t_value b.
Proof.
  unfold token_eqb. rewrite andb_true_iff, str_eqb_eq.
  destruct (tt_eqb_spec (t_type a) (t_type b)); intuition congruence.
Qed.

(* mau/token.py:136-140 Token.__len__, hence bool(token) *)
Definition token_truthy (t : token) : bool := match t_value t with [] => false | _ => true end.

(* mau/token.py:143-144 EOF, EOL *)
Definition EOF_tok : token := generate T_EOF [].
Definition EOL_tok : token := generate T_EOL [].

(* mau/token.py:53-79 Token.from_token_list *)
Definition from_token_list (tokens : list token) (join_with : str) : token :=
  match tokens with
  | [] => mkToken T_TEXT [] empty_context
  | t :: _ =>
      mkToken T_TEXT (join join_with (map t_value tokens))
        (merge_contexts (t_ctx t) (t_ctx (last tokens t)))
  end.

(* mau/token.py:96-111: one line of Token.to_token_list *)
Definition line_token (c : context) (line_number : nat) (line : str) : token :=
  let c' := move_to c line_number 0 in
  mkToken T_TEXT line
    (mkContext (c_start_line c') (c_start_column c')
               (c_start_line c') (c_start_column c' + length line) (c_source c')).

(* enumerate(...) of mau/token.py:93 *)
Fixpoint line_tokens (c : context) (n : nat) (lines : list str) : list token :=
  match lines with
  | [] => []
  | l :: ls => line_token c n l :: line_tokens c (S n) ls
  end.

(* mau/token.py:81-113 Token.to_token_list *)
Definition to_token_list (t : token) : list token :=
  line_tokens (t_ctx t) 0 (split_on NL (t_value t)).

(* ------------------------------------------------------------------ *)
(* mau/text_buffer.py:157-174 class TextBuffer *)
Record tbuf := mkTbuf {
  tb_lines : list str;
  tb_line : nat; tb_column : nat;
  tb_start_line : nat; tb_start_column : nat;
  tb_source : option str }.

(* mau/text_buffer.py:158-174 TextBuffer.__init__ *)
Definition tb_init (text : str) (start_line start_column : nat) (source : option str) : tbuf :=
  mkTbuf (match text with [] => [] | _ => split_on NL text end) 0 0 start_line start_column source.

(* mau/text_buffer.py:207-218 current_line *)
Definition current_line (tb : tbuf) : str := nth (tb_line tb) (tb_lines tb) [].

(* mau/text_buffer.py:176-198 eof *)
Definition tb_eof (tb : tbuf) : bool :=
  match tb_lines tb with
  | [] => true
  | _ =>
      if (S (tb_line tb) =? length (tb_lines tb)) && (length (current_line tb) <=? tb_column tb)
      then true
      else length (tb_lines tb) <=? tb_line tb
  end.

(* mau/text_buffer.py:220-232 current_char; "" (None) past the end of line *)
Definition current_char (tb : tbuf) : option N := nth_error (current_line tb) (tb_column tb).

(* mau/text_buffer.py:249-257 tail *)
Definition tail (tb : tbuf) : str := skipn (tb_column tb) (current_line tb).

(* mau/text_buffer.py:259-264 position *)
Definition tb_position (tb : tbuf) : position :=
  (tb_line tb + tb_start_line tb, tb_column tb + tb_start_column tb).

(* mau/text_buffer.py:266-278 nextline *)
Definition nextline (tb : tbuf) : tbuf :=
  mkTbuf (tb_lines tb)
         (if tb_line tb <=? length (tb_lines tb) then S (tb_line tb) else tb_line tb)
         0 (tb_start_line tb) 0 (tb_source tb).

(* mau/text_buffer.py:280-285 skip *)
Definition skip (tb : tbuf) (chars : nat) : tbuf :=
  mkTbuf (tb_lines tb) (tb_line tb) (tb_column tb + chars)
         (tb_start_line tb) (tb_start_column tb) (tb_source tb).
