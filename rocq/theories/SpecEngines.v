(* SpecEngines.v -- what is promised about the lines of source blocks *)
From Verif Require Export Engines SpecManagers.

(* [source_reads d l c m]: the line l has the content c and, between two
   delimiters d at its end, the marker m. *)
Inductive source_reads (d : N) : str -> str -> option str -> Prop :=
| sr_plain l : (forall c m, l <> c ++ [d] ++ m ++ [d]) -> source_reads d l l None
| sr_marked c m : no_chr d m -> source_reads d (c ++ [d] ++ m ++ [d]) c (Some m).

(* the name of a highlight style *)
Definition named_style (aliases : dict env_val) (name : str) : str :=
  match dget name aliases with Some v => py_str v | None => name end.

(* [shows prefix default aliases m style marker]: what a marker m means.  One that
   begins with the prefix is a highlight style (without its first character). *)
Definition shows (prefix default : str) (aliases : dict env_val) (m style marker : option str) : Prop :=
  match m with
  | None => style = None /\ marker = None
  | Some m =>
      (forall r, m = prefix ++ r ->
         marker = None /\
         style = Some (named_style aliases (match m with _ :: c :: s => c :: s | _ => default end))) /\
      ((forall r, m <> prefix ++ r) -> style = None /\ marker = match m with [] => None | _ => Some m end)
  end.

(* the value of an argument, or the default *)
Definition setting (a : node_args) (name : string) (default : str) : str :=
  match dget (lit name) (na_named a) with Some v => v | None => default end.
