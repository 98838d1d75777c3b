(* SpecManagers.v -- what is promised about footnotes, the table of contents, header
   links and block groups, in terms of the history of the calls. *)
From Verif Require Export Managers.

(* the number written by a string of decimal digits *)
Fixpoint decimal (acc : nat) (s : str) : option nat :=
  match s with
  | [] => Some acc
  | c :: r => if is_digit c then decimal (10 * acc + (N.to_nat c - 48)) r else None
  end.
Definition writes (s : str) (n : nat) : Prop := s <> [] /\ decimal 0 s = Some n.

(* ------------------------------------------------------------ footnotes *)
Section Footnotes.
  Context {B C : Type}.

  (* what can happen: mentions, a definition, a list of footnotes *)
  Inductive foot_event :=
  | Mentions (l : list mention)
  | Define (name : str) (body : B) (ctx : context)
  | FootList (id : nat).

  Definition defined (h : list foot_event) : list (str * B) :=
    flat_map (fun e => match e with Define n b _ => [(n, b)] | _ => [] end) h.
  Definition mentioned (h : list foot_event) : list mention :=
    flat_map (fun e => match e with Mentions l => l | _ => [] end) h.
  Definition foot_lists (h : list foot_event) : list nat :=
    flat_map (fun e => match e with FootList i => [i] | _ => [] end) h.

  (* the manager after a history *)
  Definition foot_step (m : res (fman B)) (e : foot_event) : res (fman B) :=
    let? m := m in
    match e with
    | Mentions l => Ok (fm_add_macros m l)
    | Define n b c => fm_add_body m n b c
    | FootList i => Ok (fm_add_list m i)
    end.
  Definition foot_history (h : list foot_event) : res (fman B) := fold_left foot_step h (Ok fm_init).

  (* f is the footnote made of the k-th definition (from 0) *)
  Definition made_of (copy : B -> C) (uid : footnote C -> str) (h : list foot_event) (k : nat) (f : footnote C) : Prop :=
    exists name body,
      nth_error (defined h) k = Some (name, body) /\
      fn_name f = name /\ writes (fn_public_id f) (S k) /\ fn_content f = copy body /\
      fn_internal_id f = uid (mkFootnote name (fn_public_id f) [] (copy body)).
End Footnotes.
Arguments foot_event : clear implicits.

(* ---------------------------------------------------------------- ToC *)
(* reading a forest from the top: the headers, and the index of the entry that
   contains each of them (None at the top) *)
Fixpoint preorder (t : toc_item) : list header :=
  match t with TocItem h es => h :: flat_map preorder es end.
Fixpoint size (t : toc_item) : nat :=
  match t with TocItem _ es => S (list_sum (map size es)) end.
(* [i] is the index of the entry, [p] of the entry that contains it *)
Fixpoint parents (p : option nat) (i : nat) (t : toc_item) : list (option nat) :=
  match t with
  | TocItem _ es =>
      p :: (fix go (j : nat) (l : list toc_item) : list (option nat) :=
              match l with [] => [] | t :: r => parents (Some i) j t ++ go (j + size t) r end) (S i) es
  end.
Fixpoint forest_parents (p : option nat) (i : nat) (f : list toc_item) : list (option nat) :=
  match f with [] => [] | t :: r => parents p i t ++ forest_parents p (i + size t) r end.

Definition level_at (hs : list header) (i : nat) : nat := nth i (map h_level hs) 0.

(* p is the index of the nearest header before the i-th one that is shallower *)
Definition nearest_shallower (hs : list header) (i : nat) (p : option nat) : Prop :=
  match p with
  | Some j => j < i /\ level_at hs j < level_at hs i /\ forall k, j < k < i -> level_at hs i <= level_at hs k
  | None => forall k, k < i -> level_at hs i <= level_at hs k
  end.

(* --------------------------------------------------------- header links *)
Inductive link_event :=
| Links (l : list (mention * list inode))
| Named (name : str) (h : header).
Definition named_headers (h : list link_event) : list (str * header) :=
  flat_map (fun e => match e with Named n x => [(n, x)] | _ => [] end) h.
Definition header_mentions (h : list link_event) : list (mention * list inode) :=
  flat_map (fun e => match e with Links l => l | _ => [] end) h.
Definition link_step (m : res hman) (e : link_event) : res hman :=
  let? m := m in match e with Links l => Ok (hm_add_macros m l) | Named n h => hm_add_header m n h end.
Definition link_history (h : list link_event) : res hman := fold_left link_step h (Ok hm_init).

(* --------------------------------------------------------- block groups *)
Section Groups.
  Context {B : Type}.
  Inductive group_event :=
  | Put (group position : str) (b : B) (ctx : context)
  | Show (g : mention).
  Definition blocks_of (group : str) (h : list group_event) : list (str * B) :=
    flat_map (fun e => match e with Put g p b _ => if str_eqb g group then [(p, b)] else [] | _ => [] end) h.
  Definition shown (h : list group_event) : list mention :=
    flat_map (fun e => match e with Show g => [g] | _ => [] end) h.
  Definition group_step (m : res (gman B)) (e : group_event) : res (gman B) :=
    let? m := m in match e with Put g p b c => gm_add_block m g p b c | Show g => Ok (gm_add_group m g) end.
  Definition group_history (h : list group_event) : res (gman B) := fold_left group_step h (Ok gm_init).
End Groups.
Arguments group_event : clear implicits.
