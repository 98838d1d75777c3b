(* Folder.v -- jinja_visitor.py: the templates that are in the files of a directory *)
From Verif Require Export Jinja.

(* What there is under a name: a file with its text (or the exception of read_text),
   or a directory, its entries in the order in which they are listed.  Links that
   make a directory contain itself are not modelled. *)
Inductive entry :=
| TFile (text : res str)
| TDir (entries : list (str * entry)).

(* jinja_visitor.py:257-283: what an entry adds to the templates.  A directory without
   templates adds nothing; the name of a file decides if it is read. *)
Fixpoint entry_templates (extension : str) (preprocess : str -> str) (name : str) (e : entry) : res (option env_val) :=
  match e with
  | TDir entries =>
      let? templates := (fix go (l : list (str * entry)) (result : dict env_val) : res (dict env_val) :=
        match l with
        | [] => Ok result
        | ne :: r => let? o := entry_templates extension preprocess (fst ne) (snd ne) in
                     go r (match o with Some v => dset (fst ne) v result | None => result end)
        end) entries [] in
      Ok (match templates with [] => None | _ => Some (EDict templates) end)
  | TFile text =>
      if endswith extension name then let? t := text in Ok (Some (EStr (preprocess t))) else Ok None
  end.

(* jinja_visitor.py:226-284 _load_templates_from_path, when the path is not empty *)
Fixpoint load_entries (extension : str) (preprocess : str -> str) (l : list (str * entry)) (result : dict env_val) : res (dict env_val) :=
  match l with
  | [] => Ok result
  | ne :: r => let? o := entry_templates extension preprocess (fst ne) (snd ne) in
               load_entries extension preprocess r (match o with Some v => dset (fst ne) v result | None => result end)
  end.
(* the directories of the disk, by their paths: listing one can fail *)
Definition load_path (disk : str -> res (list (str * entry))) (extension : str) (preprocess : str -> str) (path : str) : res (dict env_val) :=
  let? entries := disk path in load_entries extension preprocess entries [].

(* The visitor that reads the disk (jinja_visitor.py:359-366). *)
Definition on_disk (jc : jconfig) (preprocess : str -> str) (disk : str -> res (list (str * entry))) : jconfig :=
  mkJconfig (jc_extension jc) (jc_defaults jc) (jc_providers jc) (load_path disk (jc_extension jc) preprocess).
