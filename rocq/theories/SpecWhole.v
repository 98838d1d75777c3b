(* SpecWhole.v -- what a document must have been given at the end of the parsing *)
From Verif Require Export SpecNumbers SpecManagers.

(* [subseq a b]: a is b without some of its elements *)
Inductive subseq {A} : list A -> list A -> Prop :=
| ss_nil l : subseq [] l
| ss_skip x a b : subseq a b -> subseq a (x :: b)
| ss_take x a b : subseq a b -> subseq (x :: a) (x :: b).

(* The headers and the tables of contents of a part of a document: those that are in no
   block, and those in the blocks with [isolate=false]. *)
Definition not_isolated (a : attrs) : bool :=
  match dget (lit "isolate") (na_named (at_args a)) with Some v => str_eqb v (lit "false") | None => false end.
Fixpoint toc_headers (d : dnode) : list header :=
  match d with
  | DHeader h => [h]
  | DBlock _ l a => if not_isolated a then flat_map toc_headers l else []
  | _ => []
  end.
Fixpoint toc_places (d : dnode) : list nat :=
  match d with
  | DToc i _ => [i]
  | DBlock _ l a => if not_isolated a then flat_map toc_places l else []
  | _ => []
  end.

(* a header has an id, a list of footnotes has its footnotes, a group its blocks *)
Definition filled (done : list assign) (m : nat * later) : Prop :=
  match snd m with
  | LHeader _ => exists s, In (AInternal (fst m) s) done
  | LFootnotes => exists l, In (AFootnotes (fst m) l) done
  | LGroup _ => exists made items, In (AGroup (fst m) made items) done
  | _ => True
  end.
