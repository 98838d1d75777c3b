(* Visitors.v -- the visitor classes that come with Mau, as the command line uses them:
   visitors/jinja_visitor.py and visitors/yaml_visitor.py on a parsed document *)
From Verif Require Export Build Cli.
From Coq Require Import List.
Import ListNotations.
#[local] Open Scope list_scope.

(* jinja_visitor.py:421-429 the DictLoader, by the names of the templates: the last one
   with a name (the names are different, they come from the keys of a dictionary) *)
Fixpoint template_source (l : list template) (name : str) : option env_val :=
  match l with
  | [] => None
  | t :: r => match template_source r name with Some c => Some c | None => if str_eqb name (tp_name t) then Some (tp_content t) else None end
  end.
(* what jinja2 does with a template: a text, an UndefinedError, another exception *)
Inductive outcome_of_jinja := JText (s : str) | JUndefined | JRaises (e : exn).
(* jinja_visitor.py:431-458 _render: the template gets the environment as config, and the
   data of the node (of which _type is the type of the node).  What jinja2 does with them
   is a parameter. *)
Definition jinja_render (jinja : env_val -> dict env_val -> data -> outcome_of_jinja) (v : jvisitor) (e : env) (name : str) (d : data) : res str :=
  match template_source (jv_templates v) name with
  | None => Exc (ExPy "TemplateNotFound")
  | Some content =>
      let? config := env_asdict e in
      match jinja content config d with
      | JText s => Ok s
      | JUndefined => Exc (visitor_exception "Error rendering node with template" match d with DtD l => match dget (lit "_type") l with Some t => text_of t | None => [] end | _ => [] end d)
      | JRaises e => Exc e
      end
  end.

(* __init__.py:200-210 run_visitor with a class derived from JinjaVisitor *)
Definition jinja_class (jc : jconfig) (jinja : env_val -> dict env_val -> data -> outcome_of_jinja) (n : nat) : visitor :=
  mkVisitor (jc_extension jc) (fun e doc done =>
    let? v := jinja_init jc e in
    let? d := render_document (jinja_hooks v (jinja_render jinja v e)) (mkKwargs true true) n doc done in
    Ok (text_of d)).
(* with YamlVisitor (yaml_visitor.py:11-20); yaml.dump is a parameter *)
Definition yaml_class (dump : data -> str) (n : nat) : visitor :=
  mkVisitor (lit "yaml") (fun e doc done =>
    let? d := render_document (base_hooks (fun d => d)) (mkKwargs true true) n doc done in
    Ok (dump d)).
