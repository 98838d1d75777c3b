(* SpecGrammar.v -- the grammar of a document, as a list of lines *)
From Verif Require Export SpecLines.

(* [lexed lines r]: reading the lines gives r, tokens or an error.  A line that
   is not a fence is read by itself; a fenced block and a comment section run to
   the next line that is equal to the first.  The lines of a text that ends with
   a newline end with an empty one, which is not a line. *)
Inductive lexed : list str -> (list (token_type * str)) + option string -> Prop :=
| lexed_end : lexed [] (inl [(T_EOF, [])])
| lexed_newline : lexed [[]] (inl [(T_EOF, [])])
| lexed_line l ts rest r : reads l ts -> l :: rest <> [[]] -> lexed rest r -> lexed (l :: rest) (prepend ts r)
| lexed_block c content rest r : fence_char c -> ~ In (fence c) content -> lexed rest r ->
    lexed (fence c :: content ++ fence c :: rest) (prepend (block_shape (fence c) content) r)
| lexed_comment content rest r : ~ In slashes content -> lexed rest r ->
    lexed (slashes :: content ++ slashes :: rest) r
| lexed_unclosed_block c rest : fence_char c -> ~ In (fence c) rest -> lexed (fence c :: rest) (inr (Some "Unclosed block."%string))
| lexed_unclosed_comment rest : ~ In slashes rest -> lexed (slashes :: rest) (inr (Some "Unclosed multiline comment."%string)).
