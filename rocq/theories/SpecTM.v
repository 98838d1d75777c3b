(* SpecTM.v -- what collecting tokens up to a stop token means *)
From Verif Require Export Token.

(* The escape character. *)
Definition backslash (t : token) : Prop := t_type t = T_LITERAL /\ t_value t = [BS].

(* t is a stop token: EOF, or a token with the type and value of one of [stops]. *)
Definition stops_at (stops : list token) (t : token) : Prop :=
  (t_type t = T_EOF /\ t_value t = []) \/
  exists s, In s stops /\ t_type t = t_type s /\ t_value t = t_value s.

(* [collected stops preserve c r]: the tokens c are read and the tokens r are
   returned.  A backslash goes with the token that follows it, whatever it is; it
   is dropped when it escapes a stop token, unless asked otherwise. *)
Inductive collected (stops : list token) (preserve : bool) : list token -> list token -> Prop :=
| col_nil : collected stops preserve [] []
| col_plain t c r : ~ stops_at stops t -> ~ backslash t -> collected stops preserve c r ->
    collected stops preserve (t :: c) (t :: r)
| col_pair b u c r : ~ stops_at stops b -> backslash b -> ~ stops_at stops u -> collected stops preserve c r ->
    collected stops preserve (b :: u :: c) (b :: u :: r)
| col_escaped b u c r : ~ stops_at stops b -> backslash b -> stops_at stops u -> collected stops preserve c r ->
    collected stops preserve (b :: u :: c) ((if preserve then [b; u] else [u]) ++ r).

(* A program over the token operations and a parser state X: what a parser method
   may do with the token manager. *)
Inductive prog (X : Type) : Type -> Type :=
| PDone {A} (a : A) : prog X A
| PRaise {A} (e : exn) : prog X A
| PPeek {A} (ty : option token_type) (v : option str) (f : option (str -> bool)) (k : token -> prog X A) : prog X A
| PPeekIs {A} (ty : option token_type) (v : option str) (f : option (str -> bool)) (k : bool -> prog X A) : prog X A
| PGet {A} (ty : option token_type) (v : option str) (f : option (str -> bool)) (k : token -> prog X A) : prog X A
| PCollect {A} (stops : list token) (preserve : bool) (k : list token -> prog X A) : prog X A
| PState {A} (k : X -> prog X A) : prog X A
| PModify {A} (f : X -> X) (k : prog X A) : prog X A
| PWith {A B} (body : prog X B) (k : option B -> prog X A) : prog X A.
Arguments PDone {X A}. Arguments PRaise {X A}. Arguments PPeek {X A}. Arguments PPeekIs {X A}.
Arguments PGet {X A}. Arguments PCollect {X A}. Arguments PState {X A}. Arguments PModify {X A}.
Arguments PWith {X A B}.
