(* SpecJinja.v -- what templates claim and which one is to be used, independently of Jinja.v's functions *)
From Verif Require Export Jinja.

(* ---- the claims of a template object: a missing or empty claim asks for nothing *)
Definition asks (o : option str) (P : str -> Prop) : Prop := forall s, o = Some s -> s <> [] -> P s.
Definition fields_hold (claims fields : dict str) : Prop := forall k v, In (k, v) claims -> dget k fields = Some v.

Definition applies (t : template) (n : jnode) (prefix : option str) : Prop :=
  let '(node, parent) := n in
  (tp_type t <> [] -> fc_type node = tp_type t) /\
  tp_prefix t = prefix /\
  asks (tp_subtype t) (fun s => fc_subtype node = Some s) /\
  fields_hold (tp_custom t) (fc_custom node) /\
  (forall g, In g (tp_tags t) -> In g (fc_tags node)) /\
  asks (tp_parent_type t) (fun s => exists p, parent = Some p /\ fc_type p = s) /\
  asks (tp_parent_subtype t) (fun s => exists p, parent = Some p /\ fc_subtype p = Some s) /\
  (tp_parent_custom t <> [] -> exists p, parent = Some p /\ fields_hold (tp_parent_custom t) (fc_custom p)).

(* ---- the claims as they are written in the name of a template *)
Inductive claim :=
| Subtype (s : str) | Custom (k v : str) | Prefix (p : str)
| ParentType (s : str) | ParentSubtype (s : str) | ParentCustom (k v : str) | Tag (g : str).

Definition written (c : claim) : str :=
  match c with
  | Subtype s => s
  | Custom k v => k ++ lit "__" ++ v
  | Prefix p => lit "pf_" ++ p
  | ParentType s => lit "pt_" ++ s
  | ParentSubtype s => lit "pts_" ++ s
  | ParentCustom k v => lit "pts_" ++ k ++ lit "__" ++ v
  | Tag g => lit "tg_" ++ g
  end.

Definition dotless (s : str) : Prop := ~ In DOT s.
Definition no_dunder (s : str) : Prop := ~ exists a b, s = a ++ lit "__" ++ b.
Definition key_like (k : str) : Prop := no_dunder k /\ ~ exists a, k = a ++ lit "_".
Definition unmarked (s : str) : Prop :=
  ~ exists m r, In m [lit "pt_"; lit "pts_"; lit "pf_"; lit "tg_"] /\ s = m ++ r.

(* the claims that can be written *)
Definition plain (c : claim) : Prop :=
  dotless (written c) /\
  match c with
  | Subtype s => s <> [] /\ no_dunder s /\ unmarked s
  | Custom k v => key_like k /\ no_dunder v /\ unmarked (k ++ lit "__" ++ v)
  | Prefix _ | Tag _ => True
  | ParentType s => s <> []
  | ParentSubtype s => s <> [] /\ no_dunder s
  | ParentCustom k v => key_like k /\ no_dunder v
  end.

(* what a claim is about; no two claims about the same thing *)
Definition about (c : claim) : option (nat * str) :=
  match c with
  | Subtype _ => Some (0, []) | Custom k _ => Some (1, k) | Prefix _ => Some (2, [])
  | ParentType _ => Some (3, []) | ParentSubtype _ => Some (4, []) | ParentCustom k _ => Some (5, k)
  | Tag _ => None
  end.
Definition consistent (cs : list claim) : Prop :=
  NoDup (flat_map (fun c => match about c with Some a => [a] | None => [] end) cs).

Definition holds (n : jnode) (prefix : option str) (c : claim) : Prop :=
  let '(node, parent) := n in
  match c with
  | Subtype s => fc_subtype node = Some s
  | Custom k v => dget k (fc_custom node) = Some v
  | Prefix p => prefix = Some p
  | ParentType s => exists p, parent = Some p /\ fc_type p = s
  | ParentSubtype s => exists p, parent = Some p /\ fc_subtype p = Some s
  | ParentCustom k v => exists p, parent = Some p /\ dget k (fc_custom p) = Some v
  | Tag g => In g (fc_tags node)
  end.

Definition template_name (ty : str) (cs : list claim) : str := join [DOT] (ty :: map written cs).

(* how many claims of one kind *)
Definition how_many (kind : claim -> bool) (cs : list claim) : nat := length (filter kind cs).
Definition is_subtype c := match c with Subtype _ => true | _ => false end.
Definition is_custom c := match c with Custom _ _ => true | _ => false end.
Definition is_prefix c := match c with Prefix _ => true | _ => false end.
Definition is_parent_type c := match c with ParentType _ => true | _ => false end.
Definition is_parent_subtype c := match c with ParentSubtype _ => true | _ => false end.
Definition is_parent_custom c := match c with ParentCustom _ _ => true | _ => false end.
Definition is_tag c := match c with Tag _ => true | _ => false end.

(* ---- the choice: lexicographic comparison of the number of claims of each kind *)
Definition counts (t : template) : list nat :=
  [length (tp_custom t); flag (truthy (tp_subtype t)); flag (truthy (tp_prefix t));
   flag (truthy (tp_parent_type t)); length (tp_parent_custom t); flag (truthy (tp_parent_subtype t));
   length (tp_tags t)].
Definition more_specific (t u : template) : Prop :=
  exists same x y a b, counts t = same ++ x :: a /\ counts u = same ++ y :: b /\ y < x.

(* Among the templates of one prefix: the one that no other is more specific than,
   and the first of those that are as specific. *)
Definition best (ts : list template) (good : template -> Prop) (t : template) : Prop :=
  exists before after, ts = before ++ t :: after /\ good t /\
    (forall u, In u before -> good u -> more_specific t u) /\
    (forall u, In u after -> good u -> ~ more_specific u t).

Definition fits (n : jnode) (prefix : option str) (t : template) : Prop :=
  tp_type t = fc_type (fst n) /\ applies t n prefix.

(* the prefixes in the order of the configuration, then no prefix *)
Definition chosen (ts : list template) (prefixes : list str) (n : jnode) (t : template) : Prop :=
  exists before p after, map Some prefixes ++ [None] = before ++ p :: after /\
    (forall q u, In q before -> In u ts -> ~ fits n q u) /\ best ts (fits n p) t.
