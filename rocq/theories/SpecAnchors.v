(* SpecAnchors.v -- the ids of the headers and of the footnotes of a document *)
From Verif Require Export SpecNumbers SpecLines.

(* the headers of a part of a document, at any depth, as they are written *)
Fixpoint headings (d : dnode) : list header :=
  match d with
  | DHeader h => [h]
  | DBlock _ l _ | DList _ _ _ l _ | DMau _ l _ => flat_map headings l
  | _ => []
  end.
(* those of a parsed document: also in the bodies of its footnotes and in its groups *)
Definition document_headers (x : dx) : list header := flat_map headings (dx_nodes x ++ flat_map set_apart (dx_done x)).

(* the id of a header: the one that is written, [internal_id=...], or the one that the
   function makes of the header *)
Definition anchor (cf : config) (h : header) : str :=
  match h_internal h with Some i => i | None => cf_header_id cf h end.
Definition with_anchor (cf : config) (h : header) : header :=
  mkHeader (h_id h) (h_level h) (Some (anchor cf h)) (h_name h) (h_content h) (h_args h) (h_labels h) (h_ctx h).

(* the id of a footnote is the one that the function makes of it *)
Definition note_ok (cf : config) (f : footnote copy) : Prop :=
  fn_internal_id f = cf_footnote_id cf (mkFootnote (fn_name f) (fn_public_id f) [] (fn_content f)).
(* the footnotes of a list are numbered from 1, and have distinct names *)
Definition numbered (l : list (footnote copy)) : Prop :=
  (forall k f, nth_error l k = Some f -> fn_public_id f = str_of_nat (S k)) /\ NoDup (map fn_name l).

(* the characters of an id made by Mau *)
Definition id_char (c : N) : Prop := In c (LOWER ++ DIGITS ++ lit "-.").
(* the text of a header: the words, the verbatim text, the raw text and the names of the
   characters in it, also inside styles and macros *)
Fixpoint text_in (n : inode) : str :=
  match n with
  | NWord v _ | NText v _ | NVerbatim v _ | NUnicode v _ | NRaw v _ => v
  | NStyle _ l _ | NClass _ l _ | NLink _ l _ | NHeaderLink _ _ l _ => flat_map text_in l
  | NMacro _ _ _ | NImage _ _ _ _ _ | NFootnote _ _ _ => []
  end.

(* [dashed s t]: t is s with a dash for each run of spaces *)
Inductive dashed : str -> str -> Prop :=
| dashed_nil : dashed [] []
| dashed_chr c s t : c <> SP -> dashed s t -> dashed (c :: s) (c :: t)
| dashed_run n s t : (forall r, s <> SP :: r) -> dashed s t -> dashed (repeat SP (S n) ++ s) (45%N :: t).

(* what is left of a character of the text in an id: small letters, digits, dashes, dots
   and spaces stay, capital letters become small (also a capital I with a dot and the
   Kelvin sign), and nothing else is left *)
Inductive left_of : N -> str -> Prop :=
| left_same c : In c (LOWER ++ DIGITS ++ lit "-. ") -> left_of c [c]
| left_small k c d : nth_error UPPER k = Some c -> nth_error LOWER k = Some d -> left_of c [d]
| left_dotted : left_of 304%N (lit "i")
| left_kelvin : left_of 8490%N (lit "k")
| left_none c : ~ In c (LOWER ++ DIGITS ++ lit "-. ") -> ~ In c UPPER -> c <> 304%N -> c <> 8490%N -> left_of c [].
(* [slug text s]: s is what is left of the text, with a dash for each run of spaces *)
Definition slug (text s : str) : Prop := exists parts, Forall2 left_of text parts /\ dashed (concat parts) s.
