(* P.v -- the parser monad used by the parser models: the token manager seen as
   the list of the tokens still to be read.

   TM.v models tokens_manager.py and base_parser.py literally (an index and a
   stack of saved indices).  PropertiesTM.v (TM_is_list_parser) proves that any
   program using the token manager behaves the same in both. *)
From Verif Require Export TM.

(* A parser method: it reads tokens and changes the parser's own state X, also
   when it raises (Python does not undo assignments). *)
Definition P (X A : Type) := list token * X -> (list token * X) * res A.

Definition pret {X A} (a : A) : P X A := fun s => (s, Ok a).
Definition praise {X A} (e : exn) : P X A := fun s => (s, Exc e).
Definition pbind {X A B} (m : P X A) (f : A -> P X B) : P X B := fun s =>
  let (s', r) := m s in match r with Ok a => f a s' | Exc e => (s', Exc e) end.
Definition plift {X A} (r : res A) : P X A := fun s => (s, r).
Definition pget {X} : P X X := fun s => (s, Ok (snd s)).
Definition pmod {X} (f : X -> X) : P X unit := fun s => ((fst s, f (snd s)), Ok tt).
Notation "'let*' p ':=' m 'in' b" := (pbind m (fun p => b)) (at level 200, p pattern, right associativity).
Notation "m ';;;' b" := (pbind m (fun _ => b)) (at level 199, right associativity).

(* tokens_manager.py:143-162 peek_token *)
Definition peek_tok (rem : list token) (ty : option token_type) (v : option str) (f : option (str -> bool)) : res token :=
  match rem with
  | [] => Exc (ExPy "IndexError")
  | t :: _ => check_token t ty v f
  end.
Definition ppeek {X} (ty : option token_type) (v : option str) (f : option (str -> bool)) : P X token :=
  fun s => (s, peek_tok (fst s) ty v f).

(* tokens_manager.py:183-198 peek_token_is *)
Definition peek_is {X} (ty : option token_type) (v : option str) (f : option (str -> bool)) : P X bool :=
  fun s => (s, match peek_tok (fst s) ty v f with
               | Ok _ => Ok true
               | Exc ExTokenError => Ok false
               | Exc e => Exc e
               end).

(* tokens_manager.py:68-70: the last token is read again and again *)
Definition next_rem (rem : list token) : list token :=
  match rem with _ :: ((_ :: _) as r) => r | _ => rem end.

(* tokens_manager.py:164-181 get_token *)
Definition pget_token {X} (ty : option token_type) (v : option str) (f : option (str -> bool)) : P X token :=
  fun s => match peek_tok (fst s) ty v f with
           | Ok t => ((next_rem (fst s), snd s), Ok t)
           | Exc e => (s, Exc e)
           end.
(* the calls of the parsers: any token, by type, by type and value *)
Definition get_tok {X} : P X token := pget_token None None None.
Definition get_ty {X} (ty : token_type) : P X token := pget_token (Some ty) None None.
Definition get_tv {X} (ty : token_type) (v : str) : P X token := pget_token (Some ty) (Some v) None.
Definition is_ty {X} (ty : token_type) : P X bool := peek_is (Some ty) None None.
Definition is_tv {X} (ty : token_type) (v : str) : P X bool := peek_is (Some ty) (Some v) None.

(* tokens_manager.py:200-240 collect, for tokens that end with EOF: what is
   returned, and what is left *)
Fixpoint collect_list (stops : list token) (preserve : bool) (rem : list token) : res (list token * list token) :=
  match rem with
  | [] => Exc (ExPy "IndexError")
  | t :: r =>
      if token_in t stops then Ok ([], rem)
      else if token_eqb t escape_tok then
        match r with
        | [] => Exc ExFuel                      (* unreachable: the last token is EOF *)
        | [u] => Ok (if negb (token_in u stops) || preserve then [t; u] else [u], r)
        | u :: r' =>
            let? (c, rest) := collect_list stops preserve r' in
            Ok ((if negb (token_in u stops) || preserve then [t; u] else [u]) ++ c, rest)
        end
      else let? (c, rest) := collect_list stops preserve r in Ok (t :: c, rest)
  end.
Definition pcollect {X} (stops : list token) (preserve : bool) : P X (list token) := fun s =>
  match collect_list (stops ++ [EOF_tok]) preserve (fst s) with
  | Ok (c, rest) => ((rest, snd s), Ok c)
  | Exc e => (s, Exc e)
  end.

(* tokens_manager.py:242-274 collect_join *)
Definition pcollect_join {X} (stops : list token) (join_with : str) (preserve : bool) : P X token :=
  let* ts := pcollect stops preserve in pret (join_tokens ts join_with).

(* tokens_manager.py:72-108 "with self.tm: body" *)
Definition pwith {X A} (body : P X A) : P X (option A) := fun s =>
  match body s with
  | (s', Ok a) => (s', Ok (Some a))
  | (s', Exc ExTokenError) => ((fst s, snd s'), Ok None)
  | (s', Exc e) => ((fst s, snd s'), Exc e)
  end.

(* base_parser.py:85-110 *)
Fixpoint ptry {X} (fns : list (P X bool)) : P X bool :=
  match fns with
  | [] => pret false
  | f :: rest =>
      let* r := pwith f in
      match r with Some true => pret true | _ => ptry rest end
  end.

(* base_parser.py:59-123 parse, without finalise *)
Fixpoint ploop {X} (fuel : nat) (fns : list (P X bool)) (last : token) : P X unit :=
  match fuel with
  | 0 => praise ExFuel
  | S n =>
      let* at_eof := is_ty T_EOF in
      if at_eof : bool then pret tt
      else
        let* next := ppeek None None None in
        if token_eqb next last && context_eqb (t_ctx next) (t_ctx last)
        then praise (parser_error "Loop detected, cannot parse token." (Some (t_ctx next)))
        else
          let* result := ptry fns in
          if result : bool then ploop n fns next
          else
            let* t := ppeek None None None in
            praise (parser_error "Cannot parse token." (Some (t_ctx t)))
  end.
Definition start_token : token := mkToken T_EOF [] empty_context.
Definition pparse {X} (fns : list (P X bool)) : P X unit := fun s =>
  ploop (S (S (2 * length (fst s)))) fns start_token s.

(* base_parser.py:125-163 lex_and_parse: the final state of a new parser *)
Definition prun {X} (lexed : res (list token)) (init : X) (fns : list (P X bool)) : res X :=
  let? tokens := lexed in
  match pparse fns (tokens, init) with
  | (s, Ok _) => Ok (snd s)
  | (_, Exc e) => Exc e
  end.
