(* Cli.v -- mau/__init__.py and mau/cli.py: the program around the parser *)
From Verif Require Export DocParser.

Definition namespace_or (ns default : str) : str := match ns with [] => default | _ => ns end.

(* key, value = text.split("=") *)
Definition key_value (text : str) : res (str * str) :=
  match split_on EQUALS text with
  | [key; value] => Ok (key, value)
  | _ => Exc (ExPy "ValueError")
  end.

(* __init__.py:142-152: the loop *)
Fixpoint read_variables (variables : list str) (flat : dict env_val) : res (dict env_val) :=
  match variables with
  | [] => Ok flat
  | v :: r => let? kv := key_value v in read_variables r (dset (fst kv) (EStr (snd kv)) flat)
  end.

(* __init__.py:126-155 load_environment_variables; None for the namespace is the empty string *)
Definition load_environment_variables (e : env) (variables : list str) (ns : str) : res env :=
  let? flat := read_variables variables [] in
  Ok (match flat with
      | [] => e
      | _ => env_dupdate e flat (Some (lit "mau" ++ [DOT] ++ namespace_or ns (lit "envvars")))
      end).

(* pathlib: the last component of a path, and its stem (the name without the part
   after its last dot, unless that dot is at either end).  The empty and the dot
   components are dropped; the root and drives are not modelled. *)
Definition SLASH : N := 47.
Definition path_name (p : str) : str :=
  last (filter (fun c => negb (str_eqb c []) && negb (str_eqb c [DOT])) (split_on SLASH p)) [].
Definition stem (p : str) : str :=
  let name := path_name p in
  let parts := split_on DOT name in
  let root := join [DOT] (removelast parts) in
  match root, last parts [] with
  | _ :: _, _ :: _ => root
  | _, _ => name
  end.

(* __init__.py:100-110: the key and the path of a file *)
Definition key_path (filename : str) : str * str :=
  match key_value filename with
  | Ok kv => kv
  | Exc _ => (stem filename, filename)
  end.

(* __init__.py:87-120: the loop; yaml gives the content of a file, or an exception *)
Fixpoint read_files (yaml : str -> option env_val) (files : list str) (flat : dict env_val) : res (dict env_val) :=
  match files with
  | [] => Ok flat
  | f :: r =>
      match yaml (snd (key_path f)) with
      | Some content => read_files yaml r (dset (fst (key_path f)) content flat)
      | None => Exc (ExPy "ConfigurationError")
      end
  end.

(* __init__.py:69-123 load_environment_files *)
Definition load_environment_files (yaml : str -> option env_val) (e : env) (files : list str) (ns : str) : res env :=
  let? flat := read_files yaml files [] in
  Ok (match flat with
      | [] => e
      | _ => env_dupdate e flat (Some (lit "mau" ++ [DOT] ++ namespace_or ns (lit "envfiles")))
      end).

(* str.replace *)
Definition replace (old new s : str) : str := join new (split_sub old 0 [] s).

(* A visitor class: its extension, and the text it makes of a document (if there is
   one; the nodes and the assignments made to them) in an environment. *)
Record visitor := mkVisitor {
  vs_extension : str;
  vs_render : env -> option (list dnode * context) -> list assign -> res str }.

(* __init__.py:158-236 class Mau.  The environment object is the one given and is
   shared with the parser: it is returned as it is left. *)
Definition mau_process (n : nat) (cf : config) (v : visitor) (e : env) (text : str) (source : str) : res (env * str) :=
  let? x := parse_document n cf e text (mkOrigin 0 0 (Some source)) in
  let? out := vs_render v (dx_env x) (document_of x) (dx_done x) in
  Ok (dx_env x, out).

(* cli.py:44-154: the options that matter *)
Record options := mkOptions {
  op_config : option str; op_input : str; op_output : option str;
  op_files : list str; op_files_ns : str; op_variables : list str; op_variables_ns : str;
  op_format : option str; op_print_tokens : bool; op_lexer_only : bool }.

(* What is around the program.  yaml.safe_load of a file, the text of a file, the
   visitors. *)
Record world := mkWorld {
  wd_yaml : str -> option env_val;
  wd_text : str -> res str;
  wd_visitors : dict visitor;
  wd_config : config;
  wd_depth : nat }.

(* What can be seen of a run: what it prints and what it writes, then how it ends. *)
Inductive event :=
| PrintTokens
| PrintMessage (m : message)
| PrintText (text : str)
| PrintHelp
| Write (file : str) (text : str).
Inductive ending := Exit (code : nat) | Crash (e : exn).

(* cli.py:27-41 write_output (there is no postprocess) *)
Definition write_output (output file : str) : list event :=
  if str_eqb file (lit "-") then [PrintText output] else [Write file (output ++ [NL])].

(* a Mau exception is printed and ends the program (exit 1); another one is not caught *)
Definition fail (e : exn) : list event * ending :=
  match e with
  | ExMau m => ([PrintMessage m], Exit 1)
  | _ => ([], Crash e)
  end.

(* cli.py:286-289 *)
Definition output_name (a : options) (v : visitor) : str :=
  match op_output a with
  | Some (c :: o) => c :: o
  | _ => replace (lit ".mau") (DOT :: vs_extension v) (op_input a)
  end.

(* cli.py:186-218 the environment.  The configuration is stored under mau even when
   it is not a dictionary. *)
Definition main_environment (w : world) (a : options) : res env :=
  let? config := match op_config a with
                 | Some ((_ :: _) as c) => match wd_yaml w c with Some v => Ok v | None => Exc (ExPy "Error") end
                 | _ => Ok (EDict [])
                 end in
  let e := dupd env_empty (flatten_nested_dict [] [(lit "mau", config)]) in
  let? e := load_environment_files (wd_yaml w) e (op_files a) (op_files_ns a) in
  load_environment_variables e (op_variables a) (op_variables_ns a).

(* cli.py:164-293 main *)
Definition main (w : world) (a : options) : list event * ending :=
  match (let? e := main_environment w a in let? text := wd_text w (op_input a) in Ok (e, text)) with
  | Exc x => ([], Crash x)
  | Ok (e, text) =>
      let o := mkOrigin 0 0 (Some (op_input a)) in
      match lex_document (buffer text o) with
      | Exc x => fail x
      | Ok _ =>
          let printed := if op_print_tokens a then [PrintTokens] else [] in
          if op_lexer_only a then (printed ++ [PrintText (lit "Mau stopped after the lexing step as requested")], Exit 0)
          else
            match parse_document (wd_depth w) (wd_config w) e text o with
            | Exc x => let (ev, en) := fail x in (printed ++ ev, en)
            | Ok x =>
                match op_format a with
                | None | Some [] => (printed ++ [PrintHelp], Exit 1)
                | Some f =>
                    match dget f (wd_visitors w) with
                    | None => (printed, Crash (ExPy "KeyError"))       (* argparse allows only the known ones *)
                    | Some v =>
                        match vs_render v (dx_env x) (document_of x) (dx_done x) with
                        | Exc x => let (ev, en) := fail x in (printed ++ ev, en)
                        | Ok out => (printed ++ write_output out (output_name a v), Exit 0)
                        end
                    end
                end
            end
      end
  end.
