(* SpecNumbers.v -- the nodes that are completed after the parsing *)
From Verif Require Export DocParser SpecAttach.

(* What such a node says: a mention of a footnote, a link to a header (with its text),
   a header, a table of contents, a list of footnotes, a group. *)
Inductive later :=
| LMention (name : str) (c : context)
| LLink (target : str) (content : list inode) (c : context)
| LHeader (h : header)
| LToc
| LFootnotes
| LGroup (name : str).
Notation marks := (list (nat * later)).

(* a header without the id that it is given later *)
Definition bare (h : header) : header :=
  mkHeader (h_id h) (h_level h) None (h_name h) (h_content h) (h_args h) (h_labels h) (h_ctx h).

(* The nodes to be completed in a node, at any depth, each with its number (which
   stands for the identity of the object). *)
Fixpoint imarks (n : inode) : marks :=
  match n with
  | NFootnote i name c => [(i, LMention name c)]
  | NHeaderLink i t l c => (i, LLink t l c) :: flat_map imarks l
  | NStyle _ l _ | NClass _ l _ | NLink _ l _ => flat_map imarks l
  | _ => []
  end.
Definition tmarks (l : list inode) : marks := flat_map imarks l.
Definition lmarks (l : labels) : marks := flat_map (fun kv : str * list inode => tmarks (snd kv)) l.
Definition hmarks (h : header) : marks := (h_id h, LHeader (bare h)) :: tmarks (h_content h) ++ lmarks (h_labels h).
Fixpoint dmarks (d : dnode) : marks :=
  match d with
  | DHeader h => hmarks h
  | DParagraph lines a => flat_map (fun l : list inode * context => tmarks (fst l)) lines ++ lmarks (at_labels a)
  | DBlock _ l a | DList _ _ _ l a | DMau _ l a => flat_map dmarks l ++ lmarks (at_labels a)
  | DItem _ l _ => tmarks l
  | DToc i a => (i, LToc) :: lmarks (at_labels a)
  | DFootnotes i a => (i, LFootnotes) :: lmarks (at_labels a)
  | DGroup i name a => (i, LGroup name) :: lmarks (at_labels a)
  | DRule a | DRaw _ _ a | DSource _ _ _ a | DImage _ _ _ a | DIncludeRaw _ _ a | DInclude _ a => lmarks (at_labels a)
  end.

(* the blocks that are not in the tree of the document: the bodies of the footnotes
   that are linked, and the blocks of the groups *)
Definition set_apart (a : assign) : list dnode :=
  match a with
  | AFootnote _ f => [snd (fn_content f)]
  | AFootnotes _ l => map (fun f => snd (fn_content f)) l
  | AGroup _ _ items => map snd items
  | _ => []
  end.
(* the footnotes that an assignment gives *)
Definition notes_of (a : assign) : list (footnote copy) :=
  match a with AFootnote _ f => [f] | AFootnotes _ l => l | _ => [] end.
(* all the nodes of a parsed document that are completed later *)
Definition all_marks (x : dx) : marks := flat_map dmarks (dx_nodes x ++ flat_map set_apart (dx_done x)).

(* the node that an assignment is made to *)
Definition assigned (a : assign) : nat :=
  match a with AFootnote i _ | AFootnotes i _ | AInternal i _ | AToc i _ _ | AHeader i _ _ | AGroup i _ _ => i end.
(* a block with the arguments [group=g, position=p] *)
Definition in_group (g p : str) (b : dnode) : Prop :=
  a_block b /\ dget (lit "group") (na_named (fst (node_attrs b))) = Some g /\ dget (lit "position") (na_named (fst (node_attrs b))) = Some p.
(* the assignment is what the node asks for: the footnote that is mentioned; the header
   with that name, and its text when the link has none; the blocks of that group *)
Definition agrees (w : later) (a : assign) : Prop :=
  match w, a with
  | LMention name _, AFootnote _ f => fn_name f = name
  | LLink target content _, AHeader _ h c => h_name h = Some target /\ c = match content with [] => h_content h | _ => content end
  | LHeader _, AInternal _ _ | LToc, AToc _ _ _ | LFootnotes, AFootnotes _ _ => True
  | LGroup name, AGroup _ _ items => Forall (fun pb : str * dnode => in_group name (fst pb) (snd pb)) items
  | _, _ => False
  end.
(* the headers in an assignment *)
Definition headers_in (a : assign) : list header :=
  match a with AToc _ _ l => l | AHeader _ h _ => [h] | _ => [] end.
