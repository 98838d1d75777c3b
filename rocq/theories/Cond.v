(* Cond.v -- mau/parsers/condition_parser.py and mau/parsers/buffers/control_buffer.py *)
From Verif Require Export Preproc.

(* nodes/condition.py:8-21 ConditionNode: variable, comparison, value *)
Record condition := mkCondition { cn_variable : str; cn_comparison : str; cn_value : str; cn_ctx : context }.

(* condition_parser.py:33-67 _process_condition *)
Definition cp_condition : P (option condition) bool :=
  let* v := get_ty T_TEXT in
  let* c := get_ty T_TEXT in
  let* w := get_ty T_TEXT in
  pmod (fun _ => Some (mkCondition (t_value v) (t_value c) (t_value w) (merge_contexts (t_ctx v) (t_ctx w)))) ;;;
  pret true.

(* condition_parser.py:14-32 ConditionParser, with lex_and_parse (base_parser.py); the
   result is condition_node *)
Definition parse_condition (text : str) (o : origin) : res (option condition) :=
  prun (lex_condition (buffer text o)) None [cp_condition].

(* condition_parser.py:70-102 process_condition_with_variables *)
Definition process_condition (e : env) (t : token) : res (option condition) :=
  let? text := preprocess e (t_value t) (origin_of t) in
  parse_condition (t_value text) (origin_of t).

(* control_buffer.py:18-38 class Control *)
Record control := mkControl { ct_variable : str; ct_equal : bool; ct_value : str; ct_ctx : context }.

(* control_buffer.py:22-38 Control.__init__ *)
Definition new_control (operator variable comparison value : str) (ctx : context) : res control :=
  if str_eqb operator (lit "if") then
    if str_eqb comparison (lit "==") then Ok (mkControl variable true value ctx)
    else if str_eqb comparison (lit "!=") then Ok (mkControl variable false value ctx)
    else Exc (ExPy "ValueError")
  else Exc (parser_error "Control operator is not supported." (Some ctx)).

(* variable_value == self.value, with a string on the right *)
Definition value_is (v : env_val) (s : str) : bool := match v with EStr t => str_eqb t s | _ => false end.

(* control_buffer.py:40-62 Control.process *)
Definition run_control (e : env) (c : control) : res bool :=
  match dget (ct_variable c) e with
  | None => Exc (parser_error "Variable has not been defined." (Some (ct_ctx c)))
  | Some v => Ok (if ct_equal c then value_is v (ct_value c) else negb (value_is v (ct_value c)))
  end.

(* control.py:17-54 control_processor, after the tokens @ operator condition were
   read: the control that is pushed.  A missing condition node has no attribute. *)
Definition make_control (e : env) (prefix operator cond : token) : res control :=
  let? node := process_condition e cond in
  match node with
  | None => Exc (ExPy "AttributeError")
  | Some n => new_control (t_value operator) (cn_variable n) (cn_comparison n) (cn_value n)
                (merge_contexts (t_ctx prefix) (t_ctx cond))
  end.
