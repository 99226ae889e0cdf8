(** * SpecSplice: strings with interpolations

    A double quoted string is text, [$name] and [${expression}] in any order.
    Its tree is the list of its segments.  The expressions may themselves
    contain such strings; [splices o n] are the strings in which they are nested
    at most [n] deep.  Nothing here refers to the lexer or to the parser. *)
From Verif Require Import Base Float Tokens Ast Ctx SpecLex SpecGrammar.

(** the segment of the text [rs]; there is none if it is empty *)
Definition chars (rs : list Z) : list expr := match rs with [] => [] | _ => [EString z (encode rs)] end.
(** In [${...}] a name is a variable, and so is the name that the expression
    begins with if it is an index expression or a method call *)
Fixpoint as_variable (e : expr) : expr :=
  match e with
  | EQName _ _ => EUn z KVariable e
  | EAccess _ (EQName p n) ks => EAccess z (EUn z KVariable (EQName p n)) ks
  | ECallMethod _ _ (EBin _ KNamedAccess _ lhs rhs) args lambda => ECallMethod z true (EBin z KNamedAccess [] (as_variable lhs) rhs) args lambda
  | _ => e
  end.
(** what an expression in a string may not begin with: braces, bars and
    slashes (whose meaning depends on the token before them) *)
Definition contextual : list tok := [TLc; TSelc; TRegexp; TDivide; TPipe; TPipeEnd].
(** [segments o S es txt]: [txt] is the rest of a string, with its closing quote,
    and its segments are [es]; [S] are the strings that may be inside *)
Inductive segments (o : opts) (S : expr -> str -> Prop) : list expr -> str -> Prop :=
| b_end src rs : dq (o_hex o) src rs -> segments o S (chars rs) (encode src ++ [""""%ch])
| b_name src rs w radix es rest : dq (o_hex o) src rs -> token_text o TIdentifier (VStr w) radix w -> ~ clash TIdentifier w rest -> segments o S es rest ->
    segments o S (chars rs ++ EUn z KText (EUn z KVariable (EQName z w)) :: es) (encode src ++ "$"%ch :: w ++ rest)
| b_expr src rs ks k e es rest : dq (o_hex o) src rs ->
    stream o (mkmode true S) (Some TRc) (Some TLc) (ks ++ [k]) -> ~ In (k_tok (hd k ks)) contextual -> k_tok k = TEnd -> k_txt k = "}"%ch :: rest ->
    (forall ns, D (o_workflow o) ns Rel ks [e]) -> defs e = [] -> segments o S es rest ->
    segments o S (chars rs ++ EUn z KText (as_variable e) :: es) (encode src ++ "$"%ch :: "{"%ch :: render (ks ++ [k])).
(** a string with at least one interpolation *)
Inductive spliced (o : opts) (S : expr -> str -> Prop) : expr -> str -> Prop :=
| spliced_of es rest : segments o S es rest -> (exists i, In (EUn z KText i) es) -> spliced o S (EConcat z es) (""""%ch :: rest).
Fixpoint splices (o : opts) (n : nat) : expr -> str -> Prop :=
  match n with O => fun _ _ => False | S n => spliced o (splices o n) end.
