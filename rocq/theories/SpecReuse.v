(** * SpecReuse: histories of one parser *)
From Verif Require Import Base Float Tokens Ast Ctx Lexer Parser.

(** a parser made with the options [o] that has parsed sources of one line only,
    each with success *)
Inductive one_line_history (o : opts) : ctx -> Prop :=
| olh_new : one_line_history o (createParser o)
| olh_parsed c fuel source single e c' : one_line_history o c -> ~ In 10 source ->
    parse_run fuel c source single = Ok e c' -> one_line_history o c'.
(** a list of calls of Parse on one parser, and what each of them gave *)
Fixpoint calls (fuel : nat) (c : ctx) (l : list (str * bool)) : list (option (expr + err)) :=
  match l with
  | [] => []
  | (source, single) :: rest =>
    match parse_run fuel c source single with
    | Ok e c' => Some (inl e) :: calls fuel c' rest
    | Err x c' => Some (inr x) :: calls fuel c' rest
    | Fuel => [None]
    end
  end.
