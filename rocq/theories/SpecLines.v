(* SpecLines.v -- the syntax of the lines of a document *)
From Verif Require Export SpecLexer.

Definition LOWER : str := lit "abcdefghijklmnopqrstuvwxyz".
Definition UPPER : str := lit "ABCDEFGHIJKLMNOPQRSTUVWXYZ".
Definition DIGITS : str := lit "0123456789".
Definition name_char (c : N) : Prop := In c (LOWER ++ UPPER ++ DIGITS ++ lit "_.+-").
Definition include_char (c : N) : Prop := In c (LOWER ++ DIGITS ++ lit "_#.").
Definition label_char (c : N) : Prop := In c (LOWER ++ DIGITS ++ lit "-_").
Definition all_chars (p : N -> Prop) (s : str) : Prop := forall c, In c s -> p c.
Definition hd_not (p : N -> Prop) (s : str) : Prop := forall c r, s = c :: r -> ~ p c.
Definition opt_tok (t : token_type) (s : str) : list (token_type * str) := match s with [] => [] | _ => [(t, s)] end.
Definition EQ1 (n : nat) : str := repeat EQUALS (S n).
Definition sps (n : nat) : str := repeat SP n.
Definition one_of (s : str) (c : N) : Prop := In c s.

Definition not_fence (l : str) : Prop := forall c, l <> fence c.

(* [reads l ts]: the line l is read as the tokens ts. *)
Inductive reads : str -> list (token_type * str) -> Prop :=
| r_blank n : reads (sps n) [(T_EOL, sps n)]
| r_comment s : s <> lit "//" -> reads (lit "//" ++ s) []
| r_rule : reads (lit "---") [(T_HORIZONTAL_RULE, lit "---")]
| r_header n k s : s <> [] -> hd_not (one_of (lit " ")) s -> (k = 0 -> hd_not (one_of (lit "=")) s) ->
    reads (EQ1 n ++ sps k ++ s) [(T_HEADER, EQ1 n); (T_TEXT, s)]
| r_list i m k s : m <> [] -> all_chars (one_of (lit "*#")) m -> hd_not (one_of (lit " ")) s ->
    reads (sps i ++ m ++ sps (S k) ++ s) [(T_LIST, m); (T_TEXT, s)]
| r_variable name s : name <> [] -> all_chars name_char name ->
    reads (lit ":" ++ name ++ lit ":" ++ s) ([(T_VARIABLE, lit ":"); (T_TEXT, name); (T_LITERAL, lit ":")] ++ opt_tok T_TEXT s)
| r_variable_bare name s : name <> [] -> all_chars name_char name -> hd_not (fun c => name_char c \/ c = 58%N) s ->
    reads (lit ":" ++ name ++ s) ([(T_VARIABLE, lit ":"); (T_TEXT, name)] ++ opt_tok T_TEXT s)
| r_arguments s : reads (lit "[" ++ s ++ lit "]") [(T_ARGUMENTS, lit "["); (T_TEXT, s); (T_LITERAL, lit "]")]
| r_label role k s : all_chars label_char role -> hd_not (one_of (lit " ")) s -> (k = 0 -> hd_not label_char s) ->
    not_fence (lit "." ++ role ++ sps k ++ s) ->
    reads (lit "." ++ role ++ sps k ++ s) [(T_LABEL, lit "." ++ role); (T_TEXT, s)]
| r_control op k s : op <> [] -> all_chars (one_of LOWER) op -> hd_not (one_of (lit " ")) s -> (k = 0 -> hd_not (one_of LOWER) s) ->
    reads (lit "@" ++ op ++ sps k ++ s) [(T_CONTROL, lit "@"); (T_TEXT, op); (T_TEXT, s)]
| r_include k ty s : ty <> [] -> all_chars include_char ty ->
    reads (lit "<<" ++ sps k ++ ty ++ lit ":" ++ s) ([(T_INCLUDE, lit "<<"); (T_TEXT, ty); (T_LITERAL, lit ":")] ++ opt_tok T_TEXT s)
| r_include_bare k ty s : ty <> [] -> all_chars include_char ty -> hd_not (fun c => include_char c \/ c = 58%N) s ->
    reads (lit "<<" ++ sps k ++ ty ++ s) ([(T_INCLUDE, lit "<<"); (T_TEXT, ty)] ++ opt_tok T_TEXT s)
(* corner cases of headers: the text of a header is never empty *)
| r_header_equals n : not_fence (EQ1 (S n)) -> reads (EQ1 (S n)) [(T_HEADER, EQ1 n); (T_TEXT, lit "=")]
| r_header_spaces n k : reads (EQ1 n ++ sps (S k)) [(T_HEADER, EQ1 n); (T_TEXT, lit " ")]
(* anything else is text *)
| r_text_equals : reads (lit "=") [(T_TEXT, lit "=")]
| r_text c s : ~ In c (lit "/-=@<:[.*# ") -> not_fence (c :: s) -> reads (c :: s) [(T_TEXT, c :: s)]
| r_text_mark i m s : m <> [] -> all_chars (one_of (lit "*#")) m -> hd_not (one_of (lit "*# ")) s -> not_fence (sps i ++ m ++ s) ->
    reads (sps i ++ m ++ s) [(T_TEXT, sps i ++ m ++ s)]
| r_text_indent i s : s <> [] -> hd_not (one_of (lit "*# ")) s -> reads (sps (S i) ++ s) [(T_TEXT, sps (S i) ++ s)]
| r_text_bracket s : (forall r, s <> r ++ lit "]") -> not_fence (lit "[" ++ s) -> reads (lit "[" ++ s) [(T_TEXT, lit "[" ++ s)]
| r_text_dash s : s <> lit "--" -> not_fence (lit "-" ++ s) -> reads (lit "-" ++ s) [(T_TEXT, lit "-" ++ s)]
| r_text_slash s : hd_not (one_of (lit "/")) s -> reads (lit "/" ++ s) [(T_TEXT, lit "/" ++ s)]
| r_text_colon s : hd_not name_char s -> not_fence (lit ":" ++ s) -> reads (lit ":" ++ s) [(T_TEXT, lit ":" ++ s)]
| r_text_at s : hd_not (one_of LOWER) s -> not_fence (lit "@" ++ s) -> reads (lit "@" ++ s) [(T_TEXT, lit "@" ++ s)]
| r_text_angle s : hd_not (one_of (lit "<")) s -> reads (lit "<" ++ s) [(T_TEXT, lit "<" ++ s)]
| r_text_angles k s : hd_not (fun c => include_char c \/ c = SP) s -> not_fence (lit "<<" ++ sps k ++ s) ->
    reads (lit "<<" ++ sps k ++ s) [(T_TEXT, lit "<<" ++ sps k ++ s)].
