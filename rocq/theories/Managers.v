(* Managers.v -- mau/parsers/managers: footnotes, table of contents, header links, block groups.

   The managers keep references to node objects and assign to them at the end.  In
   the model an object that is assigned to has a number (TextParser.v), and the
   result of [process] is the list of the assignments, in order: the number of the
   node and the value. *)
From Verif Require Export TextParser.

(* a MacroFootnoteNode or MacroHeaderNode, as the managers see it: the object, the
   name it mentions, and its context *)
Record mention := mkMention { mn_id : nat; mn_name : str; mn_ctx : context }.

(* dict iteration with enumerate(..., start=n) *)
Fixpoint enumerate_from {A} (n : nat) (l : list A) : list (nat * A) :=
  match l with [] => [] | a :: r => (n, a) :: enumerate_from (S n) r end.

(* for x in l: the first exception stops the loop *)
Fixpoint for_each {A B} (f : A -> res B) (l : list A) : res (list B) :=
  match l with
  | [] => Ok []
  | a :: r => let? b := f a in let? bs := for_each f r in Ok (b :: bs)
  end.

(* ------------------------------------------------- footnotes_manager.py *)
Section Footnotes.
  (* B: the block that is the body of a footnote; C: a copy of its content *)
  Context {B C : Type}.

  (* nodes/footnote.py:6-36 FootnoteNode (the unique id is a function of the rest) *)
  Record footnote := mkFootnote { fn_name : str; fn_public_id : str; fn_internal_id : str; fn_content : C }.

  (* footnotes_manager.py:34-52 *)
  Record fman := mkFman { fm_macros : list mention; fm_bodies : dict B; fm_lists : list nat }.
  Definition fm_init : fman := mkFman [] [] [].

  (* footnotes_manager.py:54-57 add_footnote_macros *)
  Definition fm_add_macros (m : fman) (l : list mention) : fman := mkFman (fm_macros m ++ l) (fm_bodies m) (fm_lists m).

  (* footnotes_manager.py:59-68 add_body; ctx is the context of the block *)
  Definition fm_add_body (m : fman) (name : str) (b : B) (ctx : context) : res fman :=
    if dmem name (fm_bodies m) then Exc (parser_error "Footnote has been already defined." (Some ctx))
    else Ok (mkFman (fm_macros m) (dset name b (fm_bodies m)) (fm_lists m)).

  (* footnotes_manager.py:70-73 add_footnotes_list *)
  Definition fm_add_list (m : fman) (id : nat) : fman := mkFman (fm_macros m) (fm_bodies m) (fm_lists m ++ [id]).

  (* footnotes_manager.py:75-81 update *)
  Definition fm_update (m other : fman) : fman :=
    mkFman (fm_macros m ++ fm_macros other) (dupd (fm_bodies m) (fm_bodies other)) (fm_lists m ++ fm_lists other).

  (* footnotes_manager.py:83-130 process.  The dictionary footnotes_dict is filled
     from the bodies, whose names are distinct; the footnote is made before its
     internal id is computed from it. *)
  Definition fm_footnotes (copy : B -> C) (unique_id : footnote -> res str) (m : fman) : res (dict footnote) :=
    for_each (fun nb : nat * (str * B) =>
      let '(number, (name, body)) := nb in
      let f := mkFootnote name (str_of_nat number) [] (copy body) in
      let? internal := unique_id f in
      Ok (name, mkFootnote name (str_of_nat number) internal (copy body))) (enumerate_from 1 (fm_bodies m)).
  Definition fm_link (footnotes : dict footnote) (x : mention) : res (nat * footnote) :=
    match dget (mn_name x) footnotes with
    | Some f => Ok (mn_id x, f)
    | None => Exc (parser_error "Footnote has not been defined." (Some (mn_ctx x)))
    end.
  Definition fm_process (copy : B -> C) (unique_id : footnote -> res str) (m : fman)
      : res (list (nat * footnote) * list (nat * list footnote)) :=
    let? footnotes := fm_footnotes copy unique_id m in
    let? links := for_each (fm_link footnotes) (fm_macros m) in
    Ok (links, map (fun id => (id, map snd footnotes)) (fm_lists m)).
End Footnotes.
Arguments footnote : clear implicits.
Arguments fman : clear implicits.

(* ------------------------------------------------------ nodes/header.py *)
(* nodes/header.py:26-60 HeaderNode.  The internal id can be assigned later. *)
Record header := mkHeader {
  h_id : nat; h_level : nat; h_internal : option str; h_name : option str;
  h_content : list inode; h_args : node_args; h_labels : dict (list inode); h_ctx : context }.

(* ------------------------------------------------------- toc_manager.py *)
(* nodes/include.py TocItemNode *)
Inductive toc_item := TocItem (h : header) (entries : list toc_item).

(* toc_manager.py:62-103 add_nodes_under_level: what is added to the output, and the
   nodes from the returned index.  The loop is the second call; n bounds the calls
   (enough when it exceeds the number of nodes: C34). *)
Fixpoint nodes_under (n level : nat) (nodes : list header) : list toc_item * list header :=
  match n with
  | 0 => ([], nodes)
  | S n =>
      match nodes with
      | [] => ([], [])
      | h :: r =>
          if h_level h <=? level then ([], nodes)
          else
            let (entries, r1) := nodes_under n (h_level h) r in
            let (siblings, r2) := nodes_under n level r1 in
            (TocItem h entries :: siblings, r2)
      end
  end.
Definition nest_headers (hs : list header) : list toc_item := fst (nodes_under (S (length hs)) 0 hs).

(* toc_manager.py:115-133 *)
Record tman := mkTman { tm_headers : list header; tm_nodes : list nat; tm_nested : list toc_item }.
Definition tm_init : tman := mkTman [] [] [].

(* toc_manager.py:135-151 add_header, add_toc_node, update *)
Definition tm_add_header (m : tman) (h : header) : tman := mkTman (tm_headers m ++ [h]) (tm_nodes m) (tm_nested m).
Definition tm_add_toc (m : tman) (id : nat) : tman := mkTman (tm_headers m) (tm_nodes m ++ [id]) (tm_nested m).
Definition tm_update (m other : tman) : tman :=
  mkTman (tm_headers m ++ tm_headers other) (tm_nodes m ++ tm_nodes other) (tm_nested m).

(* toc_manager.py:159-169: the internal ids.  Header objects are shared with the
   document: the assignments are the (number, id) of the headers without one. *)
Definition set_internal (h : header) (i : str) : header :=
  mkHeader (h_id h) (h_level h) (Some i) (h_name h) (h_content h) (h_args h) (h_labels h) (h_ctx h).
Definition give_internal (internal_id : header -> res str) (h : header) : res header :=
  match h_internal h with
  | Some _ => Ok h
  | None => let? i := internal_id h in Ok (set_internal h i)
  end.

(* toc_manager.py:153-199 process: the manager afterwards, the internal ids of the
   headers, and for each toc node its nested and its plain entries (copies of the
   headers, which differ from them only in the parent) *)
Definition tm_process (internal_id : header -> res str) (m : tman)
    : res (tman * list (nat * str) * list (nat * (list toc_item * list header))) :=
  match tm_headers m with
  | [] => Ok (m, [], [])
  | _ =>
      let? hs := for_each (give_internal internal_id) (tm_headers m) in
      let nested := nest_headers hs in
      Ok (mkTman hs (tm_nodes m) nested,
          flat_map (fun h => match h_internal h with Some i => [(h_id h, i)] | None => [] end) hs,
          map (fun id => (id, (nested, hs))) (tm_nodes m))
  end.

(* ---------------------------------------------- header_links_manager.py *)
(* header_links_manager.py:14-20; a macro comes with its content *)
Record hman := mkHman { hm_macros : list (mention * list inode); hm_headers : dict header }.
Definition hm_init : hman := mkHman [] [].

(* header_links_manager.py:22-32 add_header, called with a name *)
Definition hm_add_header (m : hman) (name : str) (h : header) : res hman :=
  if dmem name (hm_headers m) then Exc (parser_error "Duplicate header id detected." (Some (h_ctx h)))
  else Ok (mkHman (hm_macros m) (dset name h (hm_headers m))).

(* header_links_manager.py:34-37 add_macros *)
Definition hm_add_macros (m : hman) (l : list (mention * list inode)) : hman := mkHman (hm_macros m ++ l) (hm_headers m).

(* header_links_manager.py:49-65 process: each macro gets its header, and a content
   when it has none: the copy of the header's *)
Definition hm_link (headers : dict header) (x : mention * list inode) : res (nat * (header * list inode)) :=
  match dget (mn_name (fst x)) headers with
  | Some h => Ok (mn_id (fst x), (h, match snd x with [] => h_content h | c => c end))
  | None => Exc (parser_error "Cannot find header with this id." (Some (mn_ctx (fst x))))
  end.
Definition hm_process (m : hman) : res (list (nat * (header * list inode))) :=
  for_each (hm_link (hm_headers m)) (hm_macros m).

(* ------------------------------------------------ blockgroup_manager.py *)
Section Groups.
  Context {B : Type}.

  (* blockgroup_manager.py:11-21; a defaultdict *)
  Record gman := mkGman { gm_items : dict (dict B); gm_groups : list mention }.
  Definition gm_init : gman := mkGman [] [].
  Definition gm_group (m : gman) (group : str) : dict B :=
    match dget group (gm_items m) with Some d => d | None => [] end.

  (* blockgroup_manager.py:23-45 add_block; the item holds group, position and block *)
  Definition gm_add_block (m : gman) (group position : str) (b : B) (ctx : context) : res gman :=
    if dmem position (gm_group m group) then Exc (parser_error "Position is already taken in group." (Some ctx))
    else Ok (mkGman (dset group (dset position b (gm_group m group)) (gm_items m)) (gm_groups m)).

  (* blockgroup_manager.py:47-50 add_group *)
  Definition gm_add_group (m : gman) (g : mention) : gman := mkGman (gm_items m) (gm_groups m ++ [g]).

  (* blockgroup_manager.py:52-76 process: the items of each group node, which had none *)
  Definition gm_link (m : gman) (g : mention) : res (nat * dict B) :=
    match dget (mn_name g) (gm_items m) with
    | Some d => Ok (mn_id g, dupd (dupd [] d) d)
    | None => Exc (parser_error "The group does not exist." (Some (mn_ctx g)))
    end.
  Definition gm_process (m : gman) : res (list (nat * dict B)) := for_each (gm_link m) (gm_groups m).
End Groups.
Arguments gman : clear implicits.
