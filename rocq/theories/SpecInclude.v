(* SpecInclude.v -- the lines of a document that include files *)
From Verif Require Export SpecGrammar.

(* the line is read as an include *)
Definition includes (l : str) : Prop := exists ts, reads l ts /\ exists v, In (T_INCLUDE, v) ts.

(* [block_in lines content]: one of the blocks of the document has that content *)
Inductive block_in : list str -> list str -> Prop :=
| in_here c content rest : fence_char c -> ~ In (fence c) content -> block_in (fence c :: content ++ fence c :: rest) content
| in_after_block c content rest b : fence_char c -> ~ In (fence c) content -> block_in rest b -> block_in (fence c :: content ++ fence c :: rest) b
| in_after_comment content rest b : ~ In slashes content -> block_in rest b -> block_in (slashes :: content ++ slashes :: rest) b
| in_after_line l ts rest b : reads l ts -> block_in rest b -> block_in (l :: rest) b.

(* no block of the document has a line that includes *)
Definition blocks_do_not_include (text : str) : Prop :=
  forall content l, block_in (text_lines text) content -> In l content -> ~ includes l.
