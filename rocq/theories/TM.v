(* TM.v -- mau/parsers/managers/tokens_manager.py and mau/parsers/base_parser.py *)
From Verif Require Export Token Dict.

(* ------------------------------------------------------------------ state *)
(* tokens_manager.py:29-44 TokensManager.__init__.  tm_pos is Python's index + 1,
   so a fresh manager (index -1) has tm_pos 0. *)
Record tms := mkTms { tm_tokens : list token; tm_pos : nat; tm_stack : list nat }.
Definition tm_init (tokens : list token) : tms := mkTms tokens 0 [].
Definition set_pos (s : tms) (p : nat) : tms := mkTms (tm_tokens s) p (tm_stack s).
Definition set_stack (s : tms) (k : list nat) : tms := mkTms (tm_tokens s) (tm_pos s) k.

(* A parser method: it changes the token manager and the parser's own state X,
   also when it raises (Python does not undo assignments). *)
Definition M (X A : Type) := tms * X -> (tms * X) * res A.

Definition mret {X A} (a : A) : M X A := fun s => (s, Ok a).
Definition mraise {X A} (e : exn) : M X A := fun s => (s, Exc e).
Definition mbind {X A B} (m : M X A) (f : A -> M X B) : M X B := fun s =>
  let (s', r) := m s in match r with Ok a => f a s' | Exc e => (s', Exc e) end.
Definition mlift {X A} (r : res A) : M X A := fun s => (s, r).
Definition mget {X} : M X X := fun s => (s, Ok (snd s)).
Definition mmod {X} (f : X -> X) : M X unit := fun s => ((fst s, f (snd s)), Ok tt).
Notation "'do' p '<-' m ';' b" := (mbind m (fun p => b)) (at level 200, p pattern, right associativity).

(* tokens[-1] *)
Definition last_token (tokens : list token) : option token :=
  match tokens with [] => None | t :: _ => Some (last tokens t) end.

(* tokens_manager.py:157-160 tokens[index + 1], or the last one *)
Definition peek_raw (s : tms) : res token :=
  match nth_error (tm_tokens s) (tm_pos s) with
  | Some t => Ok t
  | None => match last_token (tm_tokens s) with Some t => Ok t | None => Exc (ExPy "IndexError") end
  end.

(* tokens_manager.py:46-66 current_token *)
Definition current_token (s : tms) : res token :=
  match last_token (tm_tokens s) with
  | None => Exc ExTokenError
  | Some l => match tm_pos s with
              | 0 => Ok l
              | S i => match nth_error (tm_tokens s) i with Some t => Ok t | None => Ok l end
              end
  end.

(* tokens_manager.py:68-70 _advance: index < len(tokens) *)
Definition advance (s : tms) : tms :=
  if tm_pos s <=? length (tm_tokens s) then set_pos s (S (tm_pos s)) else s.

(* tokens_manager.py:110-141 _check_token *)
Definition check_token (t : token) (ttype : option token_type) (tvalue : option str)
    (f : option (str -> bool)) : res token :=
  if match ttype with None => false | Some ty => negb (tt_eqb (t_type t) ty) end then Exc ExTokenError
  else if match tvalue with None => false | Some v => negb (str_eqb (t_value t) v) end then Exc ExTokenError
  else if match f with None => false | Some g => negb (g (t_value t)) end then Exc ExTokenError
  else Ok t.

(* tokens_manager.py:143-162 peek_token *)
Definition peek_token {X} (ttype : option token_type) (tvalue : option str) (f : option (str -> bool)) : M X token :=
  fun s => (s, let? t := peek_raw (fst s) in check_token t ttype tvalue f).

(* tokens_manager.py:164-181 get_token *)
Definition get_token {X} (ttype : option token_type) (tvalue : option str) (f : option (str -> bool)) : M X token :=
  do _ <- peek_token ttype tvalue f;
  fun s => ((advance (fst s), snd s), current_token (advance (fst s))).

(* tokens_manager.py:183-198 peek_token_is: only TokenError is caught *)
Definition peek_token_is {X} (ttype : option token_type) (tvalue : option str) (f : option (str -> bool)) : M X bool :=
  fun s => match peek_token ttype tvalue f s with
           | (s', Ok _) => (s', Ok true)
           | (s', Exc ExTokenError) => (s', Ok false)
           | (s', Exc e) => (s', Exc e)
           end.

(* token in list: Token.__eq__ *)
Definition token_in (t : token) (l : list token) : bool := existsb (token_eqb t) l.

Definition escape_tok : token := generate T_LITERAL [BS].

(* tokens_manager.py:200-240 collect; stop_tokens already contains EOF.  The loop
   is bounded by the number of tokens (C13 shows the bound is not reached). *)
Fixpoint collect_loop {X} (fuel : nat) (stops : list token) (preserve : bool) (acc : list token) : M X (list token) :=
  match fuel with
  | 0 => mraise ExFuel
  | S n =>
      do t <- peek_token None None None;
      if token_in t stops then mret acc
      else if token_eqb t escape_tok then
        do escape <- get_token None None None;
        do u <- peek_token None None None;
        let acc' := if negb (token_in u stops) || preserve then acc ++ [escape] else acc in
        do v <- get_token None None None;
        collect_loop n stops preserve (acc' ++ [v])
      else
        do v <- get_token None None None;
        collect_loop n stops preserve (acc ++ [v])
  end.
Definition collect {X} (stops : list token) (preserve : bool) : M X (list token) := fun s =>
  collect_loop (S (length (tm_tokens (fst s)))) (stops ++ [EOF_tok]) preserve [] s.

(* tokens_manager.py:242-274 collect_join *)
Definition join_tokens (tokens : list token) (join_with : str) : token :=
  match tokens with
  | [] => mkToken T_TEXT [] empty_context
  | t :: _ =>
      mkToken T_TEXT (join join_with (filter (fun v => negb (str_eqb v [])) (map t_value tokens)))
        (merge_contexts (t_ctx t) (t_ctx (last tokens t)))
  end.
Definition collect_join {X} (stops : list token) (join_with : str) (preserve : bool) : M X token :=
  do ts <- collect stops preserve; mret (join_tokens ts join_with).

(* tokens_manager.py:72-108 __enter__ and __exit__: "with self.tm: body".
   The result is the value of the body, or None when its TokenError was suppressed. *)
Definition with_tm {X A} (body : M X A) : M X (option A) := fun s =>
  let entered := set_stack (fst s) (tm_pos (fst s) :: tm_stack (fst s)) in
  let (s', r) := body (entered, snd s) in
  match tm_stack (fst s') with
  | [] => (s', Exc (ExPy "IndexError"))                     (* pop from an empty list *)
  | saved :: rest =>
      let popped := set_stack (fst s') rest in
      match r with
      | Ok a => ((popped, snd s'), Ok (Some a))
      | Exc ExTokenError => ((set_pos popped saved, snd s'), Ok None)
      | Exc e => ((set_pos popped saved, snd s'), Exc e)
      end
  end.

(* ------------------------------------------------------------ base_parser.py *)
(* base_parser.py:85-110 one turn: the first function that returns True *)
Fixpoint try_functions {X} (fns : list (M X bool)) : M X bool :=
  match fns with
  | [] => mret false
  | f :: rest =>
      do r <- with_tm f;
      match r with
      | Some true => mret true
      | _ => try_functions rest
      end
  end.

Definition context_eqb (a b : context) : bool :=
  (c_start_line a =? c_start_line b) && (c_start_column a =? c_start_column b) &&
  (c_end_line a =? c_end_line b) && (c_end_column a =? c_end_column b) &&
  match c_source a, c_source b with
  | None, None => true | Some s, Some t => str_eqb s t | _, _ => false end.

(* base_parser.py:59-123 parse, without finalise.  [last] is last_processed_token. *)
Fixpoint parse_loop {X} (fuel : nat) (fns : list (M X bool)) (last : token) : M X unit :=
  match fuel with
  | 0 => mraise ExFuel
  | S n =>
      do at_eof <- peek_token_is (Some T_EOF) None None;
      if at_eof : bool then mret tt
      else
        do next <- peek_token None None None;
        if token_eqb next last && context_eqb (t_ctx next) (t_ctx last)
        then mraise (parser_error "Loop detected, cannot parse token." (Some (t_ctx next)))
        else
          do result <- try_functions fns;
          if result : bool then parse_loop n fns next
          else
            do t <- peek_token None None None;
            mraise (parser_error "Cannot parse token." (Some (t_ctx t)))
  end.
(* two turns per token at most: one that does not advance is followed by a loop error *)
Definition parse {X} (fns : list (M X bool)) : M X unit := fun s =>
  parse_loop (S (S (2 * length (tm_tokens (fst s))))) fns (mkToken T_EOF [] empty_context) s.

(* base_parser.py:125-163 lex_and_parse, given the lexer's result: a new parser,
   with its own token manager and initial state. *)
Definition run_parser {X} (lexed : res (list token)) (init : X) (fns : list (M X bool)) : res X :=
  let? tokens := lexed in
  match parse fns (tm_init tokens, init) with
  | (s, Ok _) => Ok (snd s)
  | (_, Exc e) => Exc e
  end.
