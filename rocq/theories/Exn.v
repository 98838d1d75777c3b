(* Exn.v -- Python exceptions as values, and positions/contexts. *)
From Verif Require Export Str.

(* mau/text_buffer.py:5 Position = tuple[int, int] *)
Definition position := (nat * nat)%type.

(* mau/text_buffer.py:44-54 class Context *)
Record context := mkContext {
  c_start_line : nat; c_start_column : nat;
  c_end_line : nat; c_end_column : nat;
  c_source : option str }.

(* mau/text_buffer.py:56-58 Context.empty *)
Definition empty_context : context := mkContext 0 0 0 0 None.

(* mau/text_buffer.py:60-74 Context.merge_contexts *)
Definition merge_contexts (ctx1 ctx2 : context) : context :=
  mkContext (Nat.min (c_start_line ctx1) (c_start_line ctx2))
            (Nat.min (c_start_column ctx1) (c_start_column ctx2))
            (Nat.max (c_end_line ctx1) (c_end_line ctx2))
            (Nat.max (c_end_column ctx1) (c_end_column ctx2))
            (c_source ctx1).

(* mau/text_buffer.py:84-91 Context.move_to (on a clone: the only mutating use,
   in Token.to_token_list and adjust_context, is on a fresh clone) *)
Definition move_to (c : context) (line column : nat) : context :=
  mkContext (c_start_line c + line) (c_start_column c + column)
            (c_end_line c + line) (c_end_column c + column) (c_source c).

(* mau/text_buffer.py:8-17 adjust_context: clone().move_to(1, 0) *)
Definition adjust_context (c : context) : context := move_to c 1 0.

(* mau/text_buffer.py:32-41 adjust_position *)
Definition adjust_position (p : position) : position := (fst p + 1, snd p).

(* The exceptions of the modelled code.
   - ExTokenError: mau/parsers/managers/tokens_manager.py TokenError, the only
     exception suppressed by [with self.tm].
   - ExMau: mau/message.py MauException, carrying a lexer, parser or visitor
     message; the text is kept, plus the position (lexer), the context (parser), or
     the context and the type of the node (visitor; the data of the node, the
     environment and additional_info are not).
   - ExPy: any other Python exception, by class name.
   - ExFuel: not an exception of the code: the model's loop bound was reached.
     Theorems show where it cannot appear. *)
Inductive message :=
| MsgLexer (text : string) (source : option str) (pos : position)
| MsgParser (text : string) (ctx : option context)
| MsgVisitor (text : string) (ctx : option context) (node_type : option str).

Inductive exn :=
| ExTokenError
| ExMau (m : message)
| ExPy (cls : string)
| ExFuel.

Inductive res (A : Type) :=
| Ok (a : A)
| Exc (e : exn).
Arguments Ok {A} a.
Arguments Exc {A} e.

Definition rbind {A B} (r : res A) (f : A -> res B) : res B :=
  match r with Ok a => f a | Exc e => Exc e end.
Notation "'let?' p ':=' r 'in' b" := (rbind r (fun p => b))
  (at level 200, p pattern, right associativity).

Definition rmap {A B} (f : A -> B) (r : res A) : res B :=
  match r with Ok a => Ok (f a) | Exc e => Exc e end.

Lemma rbind_ok {A B} (r : res A) (f : A -> res B) b :
  rbind r f = Ok b -> exists a, r = Ok a /\ f a = Ok b.
Proof. destruct r; simpl; [eauto|discriminate]. Qed.

Lemma Ok_inv {A} (a b : A) : Ok a = Ok b -> a = b.
Proof. congruence. Qed.

(* The parser error raised by create_parser_exception, base_parser.py:14-30 *)
Definition parser_error (text : string) (ctx : option context) : exn :=
  ExMau (MsgParser text ctx).
