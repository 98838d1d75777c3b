(* SpecDebug.v -- which nodes are reported when a document is visited *)
From Verif Require Export VisitLog SpecBlame.
From Coq Require Import List.
Import ListNotations.
#[local] Open Scope list_scope.

(* the nodes in a node, in the order in which they are complete: what is in a node comes
   before it *)
Fixpoint finished (t : tree) : list tree :=
  match t with
  | Tree k a c num fs => flat_map (fun nf : string * attr => finished_attr (snd nf)) fs ++ [t]
  end
with finished_attr (v : attr) : list tree :=
  match v with
  | TValue _ => []
  | TNodes l => flat_map finished l
  | TNamed l => flat_map (fun kt : str * tree => finished (snd kt)) l
  | TOne None => []
  | TOne (Some t) => finished t
  end.
(* those that have the tag *)
Definition wanted (t : tree) : bool := mem_str (lit "debug") (na_internal (tree_args t)).

(* the message about a node *)
Definition about (t : tree) (nt : note) : Prop :=
  nt_type nt = type_name (tree_kind t) /\ for_people (tree_ctx t) (nt_place nt) /\
  exists d, nt_data nt = DtD d /\ dget (lit "_type") d = Some (DtV (VStr (type_name (tree_kind t)))) /\
    dget (lit "kwargs") d = Some (DtD (map (fun kv : str * str => (fst kv, DtV (VStr (snd kv)))) (na_named (tree_args t)))) /\
    dget (lit "args") d = Some (DtV (VStrs (na_unnamed (tree_args t)))) /\ dget (lit "tags") d = Some (DtV (VStrs (na_tags (tree_args t)))).

(* each of these has, in this order, one of those; there may be others *)
Inductive embeds {A B} (R : A -> B -> Prop) : list A -> list B -> Prop :=
| emb_nil : embeds R [] []
| emb_both a b l m : R a b -> embeds R l m -> embeds R (a :: l) (b :: m)
| emb_more b l m : embeds R l m -> embeds R l (b :: m).

(* nothing in this node is given in the end of the parsing, and nothing that is elsewhere
   is visited with it *)
Definition self_contained (t : tree) : Prop :=
  forall u, subnode u t -> ~ In (tree_kind u) [KMacroFootnote; KMacroHeader; KToc; KFootnotes; KBlockGroup].
