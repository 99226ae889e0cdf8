(** * Conform: what the Go test helpers compute (parser_test.go:1911-1915,
      2061-2155, checker_test.go:717-790) *)
From Verif Require Import Base Float Tokens Ast Pn ToPN Ctx Locator Lexer Parser Messages Literal Visit Validator Api.

Definition conf_fuel : nat := Z.to_nat 20000.
Definition no_letter (z : Z) : bool := z =? 246.
Definition pn_text (e : expr) : option str := option_map format (toPN e).
(** parseExpression of parser_test.go *)
Definition parseExpression (o : opts) (s : str) : option expr :=
  match parse conf_fuel o s false with
  | POk (EProgram _ (EBlock _ [e]) _) => Some e
  | POk (EProgram _ (EBlock _ _) _) => None
  | POk (EProgram _ e _) => Some e
  | _ => None
  end.
Definition dump o s := match parseExpression o s with Some e => pn_text e | None => None end.
Definition block o s := match parse conf_fuel o s false with POk e => pn_text e | _ => None end.
Definition error o s :=
  match parse conf_fuel o s false with
  | PReported e => error_text s e
  | PParseError off => error_text s (ParseErr off)
  | _ => None
  end.
Definition heredoc o s : option (str * str) :=
  match parseExpression o s with
  | Some (EHeredoc p x (EString _ v)) => Some (x, v)
  | Some (EHeredoc p x t) => option_map (pair x) (pn_text (EHeredoc p x t))
  | _ => None
  end.
(** expectIssuesX: the set of codes *)
Definition vcode_eqb (a b : vcode) : bool.
Proof. refine (if _ : {a = b} + {a <> b} then true else false). decide equality. Defined.
Definition codes k o s : option (list vcode) :=
  match parse conf_fuel o s false with
  | POk e => match validate k s StrictError e with inl l => Some (map i_code l) | inr _ => None end
  | _ => None
  end.
Definition expect_issues k o s (l : list vcode) : bool :=
  match codes k o s with
  | Some cs => forallb (fun c => existsb (vcode_eqb c) cs) l && forallb (fun c => existsb (vcode_eqb c) l) cs
  | None => false
  end.
