(* VisitLog.v -- the debug messages of visitors (the internal tag "debug"):
   mau/visitors/base_visitor.py:16-54, 123-171, mau/message.py:119-148 *)
From Verif Require Export Visitor Build Messages.
From Coq Require Import List.
Import ListNotations.
#[local] Open Scope list_scope.

(* base_visitor.py:129-143 _debug_result: a message with the type and the place of the
   node and its data.  The environment and the additional information are not modelled. *)
Record note := mkNote { nt_type : str; nt_place : context; nt_data : data }.

(* base_visitor.py:161-166: the tags are read in the result of the visit; 24-37: the
   message needs the context in it (adjust_context_dict, text_buffer.py:20-29) *)
Definition debug_notes (node_type : str) (d : data) : res (list note) :=
  match d with
  | DtD l =>
      match dget (lit "internal_tags") l with
      | Some (DtV (VStrs tags)) =>
          if mem_str (lit "debug") tags then
            match dget (lit "_context") l with
            | Some (DtC c) => Ok [mkNote node_type (adjust_context c) d]
            | Some _ => Exc (ExPy "TypeError")
            | None => Exc (ExPy "KeyError")
            end
          else Ok []
      | Some _ => Exc (ExPy "TypeError")
      | None => Ok []
      end
  | _ => Exc (ExPy "AttributeError")
  end.

(* what was sent to the message handler, and the result *)
Definition W (A : Type) : Type := list note * res A.
Definition wret {A} (r : res A) : W A := ([], r).
Definition wbind {A B} (m : W A) (f : A -> W B) : W B :=
  match snd m with
  | Ok a => (fst m ++ fst (f a), snd (f a))
  | Exc e => (fst m, Exc e)
  end.

(* Visitor.v visit_each, visit_field, visit_rows, finish, visit_data, visit, with the
   messages *)
Fixpoint lvisit_each {A} (f : A -> W data) (l : list A) : W (list data) :=
  match l with
  | [] => wret (Ok [])
  | a :: r => wbind (f a) (fun d => wbind (lvisit_each f r) (fun ds => wret (Ok (d :: ds))))
  end.
Definition lvisit_field (hk : hooks) (k : kind) (data_of node_of : nat -> W data) (m : visit_mode) (f : field) : W data :=
  match m, f with
  | AsIs, Plain v => wret (Ok (DtV v))
  | VisitList, Nodes l => wbind (lvisit_each node_of l) (fun ds => wret (Ok (hk_list hk k ds)))
  | VisitDict, Named d => wbind (lvisit_each (fun kc : str * nat => node_of (snd kc)) d) (fun ds => wret (Ok (DtD (combine (map fst d) ds))))
  | VisitData, One None => wret (Ok (DtD []))
  | VisitData, One (Some c) => data_of c
  | VisitNode, One None => wret (Ok (hk_none hk))
  | VisitNode, One (Some c) => node_of c
  | _, _ => wret (Exc (ExPy "AttributeError"))
  end.
Fixpoint lvisit_rows (hk : hooks) (data_of node_of : nat -> W data) (o : obj) (rows : list (string * string * visit_mode)) : W (list (str * data)) :=
  match rows with
  | [] => wret (Ok [])
  | (key, k, m) :: r =>
      match fget k (o_fields o) with
      | None => wret (Exc (ExPy "AttributeError"))
      | Some f => wbind (lvisit_field hk (o_kind o) data_of node_of m f) (fun d =>
                  wbind (lvisit_rows hk data_of node_of o r) (fun ds => wret (Ok ((lit key, d) :: ds))))
      end
  end.
(* base_visitor.py:159-169: the message comes after the visit of what is in the node, and
   before the transformer or the template *)
Definition lfinish (hk : hooks) (h : heap) (l : nat) (d : data) : W data :=
  match nth_error h l with
  | None => wret (Exc (ExPy "AttributeError"))
  | Some o =>
      match debug_notes (type_name (o_kind o)) d with
      | Ok ns => (ns, hk_finish hk (jnode_of h o) d)
      | Exc e => ([], Exc e)
      end
  end.
Fixpoint lvisit_data (hk : hooks) (kw : kwargs) (n : nat) (h : heap) (l : nat) : W data :=
  match n with
  | 0 => wret (Exc (ExPy "RecursionError"))
  | S n =>
      match nth_error h l with
      | None => wret (Exc (ExPy "AttributeError"))
      | Some o =>
          let data_of := lvisit_data hk kw n h in
          let node_of c := wbind (lvisit_data hk kw n h c) (lfinish hk h c) in
          wbind (lvisit_rows hk data_of node_of o (visited (o_kind o))) (fun rows => wret (Ok (DtD (default_data kw h o ++ rows))))
      end
  end.
Definition lvisit (hk : hooks) (kw : kwargs) (n : nat) (h : heap) (l : nat) : W data :=
  wbind (lvisit_data hk kw n h l) (lfinish hk h l).
(* base_visitor.py:95-110 process, on a document *)
Definition render_log (hk : hooks) (kw : kwargs) (n : nat) (doc : option (list dnode * context)) (done : list assign) : W data :=
  match doc with
  | None => wret (Ok (hk_none hk))
  | Some d => wbind (wret (heap_of n d done)) (fun h => lvisit hk kw n h 0)
  end.

(* message.py:119-148: the first lines of the log; the data, which follow, are not
   modelled *)
Definition log_note (nt : note) : list str :=
  [lit "[MAU] Visitor message"; lit "[MAU] Message: " ++ lit "This is a debug message activated by a Mau internal tag.";
   lit "[MAU] Context: " ++ write_context (nt_place nt)] ++
  match nt_type nt with (_ :: _) as t => [lit "[MAU] Node type: " ++ t] | [] => [] end.
