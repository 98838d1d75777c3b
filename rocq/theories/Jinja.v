(* Jinja.v -- mau/visitors/jinja_visitor.py: templates, their claims, and the choice of one *)
From Verif Require Export Env NodeArgs.
From Coq Require Export Arith.

(* jinja_visitor.py:27-52 class Template; the content is any configuration value *)
Record template := mkTemplate {
  tp_type : str; tp_content : env_val; tp_name : str;
  tp_subtype : option str; tp_prefix : option str;
  tp_parent_type : option str; tp_parent_subtype : option str; tp_parent_custom : dict str;
  tp_tags : list str; tp_custom : dict str }.

(* What a template can see of a node: its type, subtype, tags and custom fields
   (nodes/node.py:44-71), and those of its parent. *)
Record facet := mkFacet { fc_type : str; fc_subtype : option str; fc_tags : list str; fc_custom : dict str }.
Definition jnode := (facet * option facet)%type.

(* the truth value of a str or None *)
Definition truthy (o : option str) : bool := match o with Some (_ :: _) => true | _ => false end.
Definition nonempty {A} (l : list A) : bool := match l with [] => false | _ => true end.
Definition flag (b : bool) : nat := if b then 1 else 0.

(* jinja_visitor.py:54-69 specificity *)
Definition specificity (t : template) : list nat :=
  [length (tp_custom t); flag (truthy (tp_subtype t)); flag (truthy (tp_prefix t));
   flag (truthy (tp_parent_type t)); length (tp_parent_custom t); flag (truthy (tp_parent_subtype t));
   length (tp_tags t)].

(* v.split("__"): the separator is found from the left *)
Fixpoint split_dunder (cur s : str) : list str :=
  match s with
  | [] => [rev cur]
  | c :: r =>
      match r with
      | d :: r' => if ((c =? 95) && (d =? 95))%N then rev cur :: split_dunder [] r'
                   else split_dunder (c :: cur) r
      | [] => [rev (c :: cur)]
      end
  end.

(* jinja_visitor.py:100-119: one part of the name.  The four tests are in this order;
   part.removeprefix(p) differs from part exactly when part starts with p. *)
Definition add_part (t : template) (part : str) : template :=
  let '(mkTemplate ty co na st pf pt ps pc tg cu) := t in
  if startswith (lit "pt_") part then
    mkTemplate ty co na st pf (Some (removeprefix (lit "pt_") part)) ps pc tg cu
  else if startswith (lit "pts_") part then
    let v := removeprefix (lit "pts_") part in
    match split_dunder [] v with
    | [key; value] => mkTemplate ty co na st pf pt ps (dset key value pc) tg cu
    | _ => mkTemplate ty co na st pf pt (Some v) pc tg cu
    end
  else if startswith (lit "pf_") part then
    mkTemplate ty co na st (Some (removeprefix (lit "pf_") part)) pt ps pc tg cu
  else if startswith (lit "tg_") part then
    mkTemplate ty co na st pf pt ps pc (tg ++ [removeprefix (lit "tg_") part]) cu
  else
    match split_dunder [] part with
    | [key; value] => mkTemplate ty co na st pf pt ps pc tg (dset key value cu)
    | _ => mkTemplate ty co na (Some part) pf pt ps pc tg cu
    end.

(* jinja_visitor.py:71-121 from_name *)
Definition from_name (name : str) (content : env_val) : res template :=
  match split_on DOT name with
  | [] => Exc (ExPy "IndexError")          (* unreachable: split gives at least one part *)
  | ty :: parts =>
      if nonempty ty then
        Ok (fold_left add_part parts (mkTemplate ty content name None None None None [] [] []))
      else Exc (ExPy "ValueError")
  end.

Definition opt_eqb (a b : option str) : bool :=
  match a, b with Some x, Some y => str_eqb x y | None, None => true | _, _ => false end.

(* the loops over the custom claims: jinja_visitor.py:131-142 and 161-172 *)
Fixpoint custom_ok (claims fields : dict str) : bool :=
  match claims with
  | [] => true
  | (k, v) :: r => match dget k fields with
                   | Some w => str_eqb v w && custom_ok r fields
                   | None => false
                   end
  end.

(* jinja_visitor.py:123-183 match *)
Definition tpl_match (t : template) (n : jnode) (prefix : option str) : bool :=
  let '(node, parent) := n in
  if nonempty (tp_type t) && negb (str_eqb (tp_type t) (fc_type node)) then false
  else if negb (custom_ok (tp_custom t) (fc_custom node)) then false
  else if negb (opt_eqb (tp_prefix t) prefix) then false
  else if truthy (tp_subtype t) && negb (opt_eqb (tp_subtype t) (fc_subtype node)) then false
  else match parent with
  | None =>
      if nonempty (tp_parent_custom t) then false
      else if truthy (tp_parent_type t) then false
      else if truthy (tp_parent_subtype t) then false
      else if nonempty (tp_tags t) && negb (forallb (fun g => mem_str g (fc_tags node)) (tp_tags t)) then false
      else true
  | Some p =>
      if negb (custom_ok (tp_parent_custom t) (fc_custom p)) then false
      else if truthy (tp_parent_type t) && negb (opt_eqb (tp_parent_type t) (Some (fc_type p))) then false
      else if truthy (tp_parent_subtype t) && negb (opt_eqb (tp_parent_subtype t) (fc_subtype p)) then false
      else if nonempty (tp_tags t) && negb (forallb (fun g => mem_str g (fc_tags node)) (tp_tags t)) then false
      else true
  end.

(* comparison of tuples *)
Fixpoint tuple_lt (a b : list nat) : bool :=
  match a, b with
  | _, [] => false
  | [], _ :: _ => true
  | x :: a', y :: b' => if x =? y then tuple_lt a' b' else x <? y
  end.

(* templates.sort(key=specificity, reverse=True), jinja_visitor.py:411: a stable sort
   (reverse keeps the order of equal keys) as an insertion sort: an element goes
   before those that are less specific, after the others *)
Fixpoint insert_tpl (t : template) (l : list template) : list template :=
  match l with
  | [] => [t]
  | u :: r => if tuple_lt (specificity t) (specificity u) then u :: insert_tpl t r else t :: l
  end.
Definition sort_templates (l : list template) : list template := fold_right insert_tpl [] l.

(* str.removesuffix *)
Definition removesuffix (suf s : str) : str :=
  if endswith suf s then firstn (length s - length suf) s else s.

(* jinja_visitor.py:395-408: the templates of the flat dictionary *)
Fixpoint build_templates (extension : str) (flat : env) : res (list template) :=
  match flat with
  | [] => Ok []
  | (name, content) :: r =>
      if endswith extension name then
        let? t := from_name (removesuffix extension name) content in
        let? ts := build_templates extension r in Ok (t :: ts)
      else build_templates extension r
  end.

(* What the visitor loads from elsewhere: the provider plugins that are installed
   (each with its dictionary of templates), and the templates found in a path
   (jinja_visitor.py:226-284; reading the files is not modelled). *)
Record jconfig := mkJconfig {
  jc_extension : str;
  jc_defaults : env;
  jc_providers : dict (dict env_val);
  jc_path : str -> res (dict env_val) }.

(* "for x in value" over a configuration value *)
Definition iter_value (f : env_found) : res (list str) :=
  match f with
  | FDefault => Ok []
  | FVal (EList l) => Ok l
  | FVal (EStr s) => Ok (map (fun c => [c]) s)
  | FVal (EDict d) => Ok (keys d)
  | FVal (EOther _) => Exc (ExPy "TypeError")
  | FEnv _ => Exc (ExPy "KeyError")
  end.
(* the test [if not value] before it: an EOther may be false (None, 0, False) *)
Definition falsy_repr (s : str) : bool := mem_str s [lit "None"; lit "0"; lit "False"; lit "0.0"].
Definition iter_if (f : env_found) : res (list str) :=
  match f with
  | FVal (EOther r) => if falsy_repr r then Ok [] else Exc (ExPy "TypeError")
  | _ => iter_value f
  end.

Fixpoint load_each (load : str -> res (dict env_val)) (names : list str) (e : env) : res env :=
  match names with
  | [] => Ok e
  | n :: r => let? d := load n in load_each load r (env_dupdate e d None)
  end.

(* jinja_visitor.py:198-223 load_templates_from_providers *)
Definition load_providers (jc : jconfig) (e : env) : res env :=
  let? names := iter_if (env_get e (lit "mau.visitor.templates.providers")) in
  load_each (fun n => match dget n (jc_providers jc) with
                      | Some d => Ok d
                      | None => Exc (ExMau (MsgVisitor "Template provider is not available." None None))
                      end) names env_empty.

(* jinja_visitor.py:287-324 load_templates_from_filesystem; an empty path gives nothing (237) *)
Definition load_filesystem (jc : jconfig) (e : env) : res env :=
  let? names := iter_if (env_get e (lit "mau.visitor.templates.paths")) in
  load_each (fun p => match p with [] => Ok [] | _ => jc_path jc p end) names env_empty.

(* jinja_visitor.py:371-376: a value that is not an environment has no _variables *)
Definition load_custom (e : env) : res env :=
  match env_get e (lit "mau.visitor.templates.custom") with
  | FEnv c => Ok c
  | FDefault => Ok env_empty
  | FVal _ => Exc (ExPy "AttributeError")
  end.

(* jinja_visitor.py:343-430 __init__: the templates, in order of specificity, and
   the prefixes as configured.  The dictionary by type is the filter in
   [find_template]. *)
Record jvisitor := mkJvisitor { jv_templates : list template; jv_prefixes : env_found }.
Definition all_templates (jc : jconfig) (e : env) : res env :=
  let? d := env_from_environment (jc_defaults jc) None in
  let? p := load_providers jc e in
  let? f := load_filesystem jc e in
  let? c := load_custom e in
  Ok (env_update (env_update (env_update d p None true) f None true) c None true).
Definition jinja_init (jc : jconfig) (e : env) : res jvisitor :=
  let? flat := all_templates jc e in
  let? ts := build_templates (jc_extension jc) flat in
  Ok (mkJvisitor (sort_templates ts) (env_get e (lit "mau.visitor.templates.prefixes"))).

(* jinja_visitor.py:482-515 _find_matching_template.  err is the exception that
   create_visitor_exception makes of the node and its data (Visitor.v). *)
Definition matching (v : jvisitor) (n : jnode) (prefix : option str) : list template :=
  filter (fun t => tpl_match t n prefix) (filter (fun t => str_eqb (tp_type t) (fc_type (fst n))) (jv_templates v)).
Definition find_template (v : jvisitor) (n : jnode) (err : exn) : res template :=
  let? prefixes := iter_value (jv_prefixes v) in
  match flat_map (fun p => matching v n (Some p)) prefixes ++ matching v n None with
  | [] => Exc err
  | t :: _ => Ok t
  end.
