(** * SpecParse: the states a parser can be in between calls of Parse *)
From Verif Require Import Base Float Tokens Ast Ctx Lexer Parser.

(** A parser made with the options [o] that has parsed any sources, with any
    outcome, including failures and panics that a caller recovered from. *)
Inductive parser_state (o : opts) : ctx -> Prop :=
| ps_new : parser_state o (createParser o)
| ps_parsed c fuel source single e c' :
    parser_state o c -> parse_run fuel c source single = Ok e c' -> parser_state o c'
| ps_failed c fuel source single e c' :
    parser_state o c -> parse_run fuel c source single = Err e c' -> parser_state o c'.
