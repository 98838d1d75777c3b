(* SpecText.v -- inline markup: what is written, and the tree it means *)
From Verif Require Export Str.

Inductive style := Underscore | Star | Caret | Tilde.
Definition mark_of (st : style) : N :=
  match st with Underscore => chr "_" | Star => chr "*" | Caret => chr "^" | Tilde => chr "~" end.
Definition style_name (st : style) : str :=
  match st with Underscore => lit "underscore" | Star => lit "star" | Caret => lit "caret" | Tilde => lit "tilde" end.

Inductive itree :=
| IText (s : str)                       (* plain text *)
| IVerb (s : str)                       (* `s` *)
| IEsc (m : N) (s : str)                (* $s$ or %s%: text *)
| IStyle (st : style) (l : list itree)  (* *l* and so on *)
| IFoot (name : str)                    (* [footnote](name) *)
| IHead (name : str)                    (* [header](name) *)
(* the other macros *)
| ILink (target : str)                  (* [link](target) *)
| IMail (address : str)                 (* [mailto](address) *)
| IChar (v : str)                       (* [unicode](v) *)
| IRaw (v : str)                        (* [raw](v) *)
| IImage (uri : str) (more : list str)  (* [image](uri, alt, width, height): the last ones can be left out *)
| IMacro (name : str) (values : list str)        (* [name](value, ...) of the user *)
| ILinkText (target : str) (l : list itree)      (* [link](target, "text") *)
| IMailText (address : str) (l : list itree)     (* [mailto](address, "text") *)
| IHeadText (name : str) (l : list itree)        (* [header](name, "text") *)
| IClass (classes : list str) (l : list itree).  (* [class]("text", class, ...) *)

(* The characters that start some markup. *)
Definition MARKUP : str := lit "~^_*`[\$%".

(* Text: any character can be written with a backslash; those that start some markup
   must be. *)
Inductive text_written : str -> str -> Prop :=
| tw_nil : text_written [] []
| tw_plain c s w : ~ In c MARKUP -> c <> NL -> text_written s w -> text_written (c :: s) (c :: w)
| tw_escaped c s w : c <> NL -> text_written s w -> text_written (c :: s) (BS :: c :: w).

(* Between two marks m: the mark is written with a backslash; no other backslash is
   directly before a mark. *)
Fixpoint inside (m : N) (s : str) : str :=
  match s with
  | [] => []
  | c :: r => if N.eqb c m then BS :: c :: inside m r else c :: inside m r
  end.
Fixpoint can_be_inside (m : N) (s : str) : Prop :=
  match s with
  | [] => True
  | c :: r => c <> NL /\ (c = BS -> r <> [] /\ hd_error r <> Some m) /\ can_be_inside m r
  end.

(* The name of a footnote or of a header. *)
Definition mention_name (n : str) : Prop :=
  n <> [] /\ (forall c, In c n -> ~ In c (lit ")\=, " ++ [QUOTE; NL])) /\
  forall c r, n = c :: r -> ~ In c (lit "#*@").

(* The values of the other macros: spaces only inside. *)
Definition macro_value (v : str) : Prop :=
  v <> [] /\ (forall c, In c v -> ~ In c (lit ")\=," ++ [QUOTE; NL])) /\
  hd_error v <> Some SP /\ hd_error (rev v) <> Some SP /\ forall c r, v = c :: r -> ~ In c (lit "#*@").

(* All that can be written with a backslash, and the names of macros. *)
Definition SPECIAL : str := lit "~^_*`()[]\$%" ++ [QUOTE].
Definition macro_name (n : str) : Prop := n <> [] /\ forall c, In c n -> ~ In c SPECIAL /\ c <> SP /\ c <> NL.
Definition BUILTIN : list str :=
  [lit "link"; lit "header"; lit "mailto"; lit "image"; lit "footnote"; lit "class"; lit "unicode"; lit "raw"].
Definition user_macro (n : str) : Prop := macro_name n /\ ~ In n BUILTIN /\ firstn 2 n <> lit "if".

(* The macros with values: the name, the values, what they mean. *)
Inductive value_macro : str -> list str -> itree -> Prop :=
| vm_link v : value_macro (lit "link") [v] (ILink v)
| vm_mail v : value_macro (lit "mailto") [v] (IMail v)
| vm_char v : value_macro (lit "unicode") [v] (IChar v)
| vm_raw v : value_macro (lit "raw") [v] (IRaw v)
| vm_image v more : length more <= 3 -> value_macro (lit "image") (v :: more) (IImage v more)
| vm_user n v more : user_macro n -> value_macro n (v :: more) (IMacro n (v :: more)).
(* The macros with a value and a text. *)
Inductive text_macro : str -> str -> list itree -> itree -> Prop :=
| tm_link v l : text_macro (lit "link") v l (ILinkText v l)
| tm_mail v l : text_macro (lit "mailto") v l (IMailText v l)
| tm_head v l : text_macro (lit "header") v l (IHeadText v l).
(* A text in quotes. *)
Definition quoted_text (s : str) : Prop :=
  ~ In QUOTE s /\ can_be_inside QUOTE s /\ hd_error (rev s) <> Some SP /\ forall c r, s = c :: r -> ~ In c (lit "#*@").
(* As the last argument it has no closing brackets and no backslashes. *)
Definition last_text (s : str) : Prop := quoted_text s /\ forall c, In c s -> ~ In c (lit ")\").

Definition starts_text (l : list itree) : Prop := exists s r, l = IText s :: r.

(* [written outer l w]: w is a way to write l inside the style [outer]. *)
Inductive written : option style -> list itree -> str -> Prop :=
| wr_nil o : written o [] []
| wr_text o s w l w' : s <> [] -> text_written s w -> ~ starts_text l -> written o l w' ->
    written o (IText s :: l) (w ++ w')
| wr_verb o s l w' : can_be_inside (chr "`") s -> written o l w' ->
    written o (IVerb s :: l) (lit "`" ++ inside (chr "`") s ++ lit "`" ++ w')
| wr_esc o m s l w' : m = chr "$" \/ m = chr "%" -> can_be_inside m s -> written o l w' ->
    written o (IEsc m s :: l) ([m] ++ inside m s ++ [m] ++ w')
| wr_style o st c w l w' : o <> Some st -> written (Some st) c w -> written o l w' ->
    written o (IStyle st c :: l) ([mark_of st] ++ w ++ [mark_of st] ++ w')
| wr_foot o n l w' : mention_name n -> written o l w' ->
    written o (IFoot n :: l) (lit "[footnote](" ++ n ++ lit ")" ++ w')
| wr_head o n l w' : mention_name n -> written o l w' ->
    written o (IHead n :: l) (lit "[header](" ++ n ++ lit ")" ++ w')
| wr_values o name vs t l w' : value_macro name vs t -> Forall macro_value vs -> written o l w' ->
    written o (t :: l) (lit "[" ++ name ++ lit "](" ++ join (lit ", ") vs ++ lit ")" ++ w')
| wr_shown o name v c s t l w' : text_macro name v c t -> macro_value v -> last_text s -> written None c s -> written o l w' ->
    written o (t :: l) (lit "[" ++ name ++ lit "](" ++ join (lit ", ") [v; [QUOTE] ++ s ++ [QUOTE]] ++ lit ")" ++ w')
| wr_class o classes c s l w' : Forall macro_value classes -> quoted_text s -> written None c s -> written o l w' ->
    written o (IClass classes c :: l) (lit "[class](" ++ join (lit ", ") (([QUOTE] ++ s ++ [QUOTE]) :: classes) ++ lit ")" ++ w').

(* Every character of SPECIAL written with a backslash. *)
Fixpoint backslashed (s : str) : str :=
  match s with
  | [] => []
  | c :: r => if mem_chr c SPECIAL then BS :: c :: backslashed r else c :: backslashed r
  end.
