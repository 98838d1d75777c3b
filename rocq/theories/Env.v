(* Env.v -- mau/environment/helpers.py and mau/environment/environment.py *)
From Verif Require Export Dict.

(* The values of a configuration.  EOther stands for any other leaf (a number, a
   boolean, an object), given by its str().  Sharing between dictionary objects is not modelled: an
   empty dictionary stored as a leaf is a value. *)
Inductive env_val :=
| EStr (s : str)
| EList (l : list str)
| EOther (repr : str)
| EDict (d : list (str * env_val)).

Definition DOT : N := 46.

(* helpers.py:25 the key under a parent key; None and the empty string are both falsy *)
Definition child_key (parent key : str) : str :=
  match parent with [] => key | _ => parent ++ [DOT] ++ key end.

(* helpers.py:23-33 what one item adds to the flat dictionary, key already prefixed;
   flat[key] = value is an update with one item *)
Fixpoint flat_value (key : str) (v : env_val) : dict env_val :=
  match v with
  | EDict ((_ :: _) as kvs) =>
      fold_left (fun flat kv => dupd flat (flat_value (child_key key (fst kv)) (snd kv))) kvs []
  | _ => [(key, v)]
  end.

(* helpers.py:4-35 flatten_nested_dict (separator is always the dot) *)
Definition flatten_nested_dict (parent : str) (nested : dict env_val) : dict env_val :=
  fold_left (fun flat kv => dupd flat (flat_value (child_key parent (fst kv)) (snd kv))) nested [].

(* helpers.py:53-72 _split, on the parts of the key (splitting once and recursing
   on the rest splits at every dot).  setdefault on a value that is not a
   dictionary has no such method (AttributeError), storing in it is a TypeError. *)
Fixpoint split_into (parts : list str) (value : env_val) (output : dict env_val) : res (dict env_val) :=
  match parts with
  | [] => Ok output                     (* unreachable: split returns at least one part *)
  | [k] => Ok (dset k value output)
  | k :: rest =>
      match dget k output with
      | None => let? d := split_into rest value [] in Ok (dset k (EDict d) output)
      | Some (EDict d0) => let? d := split_into rest value d0 in Ok (dset k (EDict d) output)
      | Some _ => Exc (ExPy (match rest with [_] => "TypeError" | _ => "AttributeError" end))
      end
  end.

(* helpers.py:38-79 nest_flattened_dict *)
Fixpoint nest_items (flat : dict env_val) (result : dict env_val) : res (dict env_val) :=
  match flat with
  | [] => Ok result
  | (k, v) :: r => let? result' := split_into (split_on DOT k) v result in nest_items r result'
  end.
Definition nest_flattened_dict (flat : dict env_val) : res (dict env_val) := nest_items flat [].

(* environment.py:15-18 Environment: the flat dictionary *)
Definition env := dict env_val.
Definition env_empty : env := [].

(* environment.py:45-51 dupdate; an empty namespace is falsy *)
Definition env_dupdate (e : env) (other : dict env_val) (namespace : option str) : env :=
  let other' := match namespace with
                | Some (a :: ns) => [(a :: ns, EDict other)]
                | _ => other
                end in
  dupd e (flatten_nested_dict [] other').

(* environment.py:20-24 from_dict *)
Definition env_from_dict (other : dict env_val) (namespace : option str) : env :=
  env_dupdate env_empty other namespace.

(* environment.py:53-54 asdict *)
Definition env_asdict (e : env) : res (dict env_val) := nest_flattened_dict e.

(* environment.py:26-28 from_environment *)
Definition env_from_environment (other : env) (namespace : option str) : res env :=
  let? d := env_asdict other in Ok (env_from_dict d namespace).

(* environment.py:30-43 update *)
Definition env_update (e other : env) (namespace : option str) (overwrite : bool) : env :=
  let new_env := env_from_dict other namespace in
  if overwrite then dupd e new_env else dupd new_env e.

(* environment.py:59-63 __setitem__ *)
Definition env_set (e : env) (k : str) (v : env_val) : env := env_dupdate e [(k, v)] None.

(* environment.py:65-66 __getitem__ *)
Definition env_item (e : env) (k : str) : res env_val :=
  match dget k e with Some v => Ok v | None => Exc (ExPy "KeyError") end.

(* environment.py:68-103 get: a value, an environment, or the default *)
Inductive env_found := FVal (v : env_val) | FEnv (e : env) | FDefault.
Definition env_get (e : env) (k : str) : env_found :=
  match dget k e with
  | Some v => FVal v
  | None =>
      let prefix := k ++ [DOT] in
      match filter (fun kv => startswith prefix (fst kv)) e with
      | [] => FDefault
      | found => FEnv (env_from_dict
                   (fold_left (fun d kv => dset (removeprefix prefix (fst kv)) (snd kv) d) found []) None)
      end
  end.

(* ---------------------------------------------------------------- proofs *)
Definition is_leaf (v : env_val) : Prop := match v with EDict (_ :: _) => False | _ => True end.

(* what an Environment contains: distinct keys, no nested dictionary *)
Definition flat_env (e : env) : Prop := NoDup (keys e) /\ Forall (fun kv => is_leaf (snd kv)) e.

(* well-formed nested dictionaries: distinct keys everywhere *)
Fixpoint env_val_ind' (P : env_val -> Prop)
  (H1 : forall s, P (EStr s)) (H2 : forall l, P (EList l)) (H3 : forall i, P (EOther i))
  (H4 : forall d, Forall (fun kv => P (snd kv)) d -> P (EDict d)) (v : env_val) : P v :=
  match v with
  | EStr s => H1 s | EList l => H2 l | EOther i => H3 i
  | EDict d => H4 d ((fix go d := match d return Forall (fun kv => P (snd kv)) d with
                      | [] => Forall_nil _
                      | kv :: r => Forall_cons kv (env_val_ind' P H1 H2 H3 H4 (snd kv)) (go r) end) d)
  end.

Inductive wf_val : env_val -> Prop :=
| wf_leaf v : is_leaf v -> wf_val v
| wf_dict d : wf_dict_ d -> wf_val (EDict d)
with wf_dict_ : dict env_val -> Prop :=
| wf_nil : wf_dict_ []
| wf_cons k v d : no_chr DOT k -> ~ In k (keys d) -> wf_val v -> wf_dict_ d -> wf_dict_ ((k, v) :: d).
Scheme wf_val_mind := Induction for wf_val Sort Prop
  with wf_dict_mind := Induction for wf_dict_ Sort Prop.

(* the leaves of a value, with their paths *)
Definition flat_map' {A B} (f : A -> list B) := fix go (l : list A) : list B :=
  match l with [] => [] | a :: r => f a ++ go r end.
Fixpoint val_paths (v : env_val) : list (list str * env_val) :=
  match v with
  | EDict ((_ :: _) as d) =>
      flat_map' (fun kv => map (fun pv => (fst kv :: fst pv, snd pv)) (val_paths (snd kv))) d
  | _ => [([], v)]
  end.
Definition paths (d : dict env_val) : list (list str * env_val) :=
  flat_map' (fun kv => map (fun pv => (fst kv :: fst pv, snd pv)) (val_paths (snd kv))) d.

Lemma paths_cons k v d : paths ((k, v) :: d) = map (fun pv => (k :: fst pv, snd pv)) (val_paths v) ++ paths d.
Proof. reflexivity. Qed.
Lemma val_paths_leaf v : is_leaf v -> val_paths v = [([], v)].
Proof. destruct v as [| | |[|]]; cbn; tauto. Qed.
Lemma val_paths_dict kv d : val_paths (EDict (kv :: d)) = paths (kv :: d).
Proof. reflexivity. Qed.
