(* Messages.v -- mau/message.py: what the handler of the command line writes in the log *)
From Verif Require Export Cli.

(* text_buffer.py:101-109 Context.__repr__: the source is left out when it is empty *)
Definition write_context (c : context) : str :=
  (match c_source c with Some ((_ :: _) as s) => s ++ lit ":" | _ => [] end) ++
  str_of_nat (c_start_line c) ++ lit "," ++ str_of_nat (c_start_column c) ++ lit "-" ++
  str_of_nat (c_end_line c) ++ lit "," ++ str_of_nat (c_end_column c).

(* the repr of a pair of numbers *)
Definition write_position (p : position) : str :=
  lit "(" ++ str_of_nat (fst p) ++ lit ", " ++ str_of_nat (snd p) ++ lit ")".

(* message.py:104-143 LogMessageHandler.process: the lines that are logged.  The help
   that follows some of the errors of the parser, and for those of the visitor the
   lines after these (the data of the node, and the templates) are not modelled. *)
Definition log_message (m : message) : list str :=
  match m with
  | MsgLexer text source pos =>
      [lit "Lexer error: " ++ lit text;
       lit "Source: " ++ match source with Some s => s | None => lit "None" end;
       lit "Position: " ++ write_position (adjust_position pos)]
  | MsgParser text ctx =>
      (lit "Parser error: " ++ lit text) ::
      match ctx with Some c => [lit "Context: " ++ write_context (adjust_context c)] | None => [] end
  | MsgVisitor text ctx node_type =>
      [lit "[MAU] Visitor error"; lit "[MAU] Message: " ++ lit text;
       lit "[MAU] Context: " ++ match ctx with Some c => write_context c | None => lit "None" end] ++
      match node_type with Some ((_ :: _) as t) => [lit "[MAU] Node type: " ++ t] | _ => [] end
  end.

(* __init__.py:180-210, cli.py:181: what a run logs *)
Definition logged (run : list event * ending) : list str :=
  flat_map (fun ev => match ev with PrintMessage m => log_message m | _ => [] end) (fst run).
