(* SpecLexer.v -- what the lexing properties say, independently of the lexers.
   A source is a list of lines; positions are (line, column), from 0. *)
From Verif Require Export Token.

(* The text of [lines] between positions p and q (q excluded). *)
Definition slice (lines : list str) (p q : position) : str :=
  if fst p =? fst q
  then firstn (snd q - snd p) (skipn (snd p) (nth (fst p) lines []))
  else join [NL] ([skipn (snd p) (nth (fst p) lines [])]
                  ++ firstn (fst q - fst p - 1) (skipn (S (fst p)) lines)
                  ++ [firstn (snd q) (nth (fst q) lines [])]).

(* A position of the source.  The line after the last one is allowed (EOF). *)
Definition valid_pos (lines : list str) (p : position) : Prop :=
  fst p <= length lines /\ snd p <= length (nth (fst p) lines []).

(* Reading order. *)
Definition pos_le (p q : position) : Prop := fst p < fst q \/ (fst p = fst q /\ snd p <= snd q).

(* A buffer that starts at (sl, sc) of its file: only its first line is shifted
   horizontally. *)
Definition shifted (sl sc : nat) (p : position) : position :=
  (fst p + sl, snd p + (if fst p =? 0 then sc else 0)).

(* Token t is the text of [lines] from p to q, and its context says so. *)
Definition located (lines : list str) (sl sc : nat) (src : option str)
    (t : token) (p q : position) : Prop :=
  valid_pos lines p /\ valid_pos lines q /\ pos_le p q /\
  t_value t = slice lines p q /\
  (c_start_line (t_ctx t), c_start_column (t_ctx t)) = shifted sl sc p /\
  (c_end_line (t_ctx t), c_end_column (t_ctx t)) = shifted sl sc q /\
  c_source (t_ctx t) = src.

(* The tokens are located one after the other in [p, q], without overlapping. *)
Fixpoint tokens_in (lines : list str) (sl sc : nat) (src : option str)
    (toks : list token) (p q : position) : Prop :=
  match toks with
  | [] => pos_le p q
  | t :: r => exists a b, pos_le p a /\ located lines sl sc src t a b /\
                          tokens_in lines sl sc src r b q
  end.

(* The lines of a text. *)
Definition text_lines (text : str) : list str := match text with [] => [] | _ => split_on NL text end.

(* The text of complete lines: each is followed by a newline. *)
Definition lines_text (ls : list str) : str := concat_str (map (fun l => l ++ [NL]) ls).

(* Types and values of tokens, forgetting contexts. *)
Definition tv (t : token) : token_type * str := (t_type t, t_value t).

(* Types and values, or the text of the error. *)
Definition outcome (r : res (list token)) : (list (token_type * str)) + option string :=
  match r with
  | Ok toks => inl (map tv toks)
  | Exc (ExMau (MsgLexer text _ _)) => inr (Some text)
  | Exc _ => inr None
  end.

(* Tokens in front of an outcome. *)
Definition prepend (toks : list (token_type * str))
    (o : (list (token_type * str)) + option string) :=
  match o with inl ts => inl (toks ++ ts) | inr e => inr e end.

(* Positions of a token, as its context gives them. *)
Definition start_of (t : token) : position := (c_start_line (t_ctx t), c_start_column (t_ctx t)).
Definition end_of (t : token) : position := (c_end_line (t_ctx t), c_end_column (t_ctx t)).

(* A block fence: four times the same character.  A newline cannot be part of a
   line, four spaces are a blank line, and //// is a comment. *)
Definition fence (c : N) : str := [c; c; c; c].
Definition fence_char (c : N) : Prop := c <> NL /\ c <> SP /\ c <> 47%N.
Definition slashes : str := [47; 47; 47; 47]%N.

(* The tokens of a block. *)
Definition block_shape (f : str) (content : list str) : list (token_type * str) :=
  [(T_BLOCK, f)]
  ++ (match content with [] => [] | _ => [(T_TEXT, join [NL] content)] end)
  ++ [(T_BLOCK, f)].
