(** * PropertiesFound: C57 *)
From Verif Require Import Base Utf8Facts Float Tokens Ast Ctx Locator Lexer Parser Api SpecOptions SpecFound FoundSim.
From Coq Require Import Lia.

Lemma found_run T o fuel single e : o_factory o = true ->
  to_presult (parse_run fuel (createParser o) T single) = PReported e -> honest T o e.
Proof.
  intros Hf H. unfold parse_run in H. pose proof (@parse_top_f T o Hf fuel single (start_ctx T (createParser o)) (conj eq_refl eq_refl) Logic.I) as K.
  destruct (parseTop (run fuel) single (start_ctx T (createParser o))) as [x d|e' d|]; cbn in H; try discriminate.
  destruct e'; try discriminate; injection H as <-; exact K.
Qed.

(** ** C57: what an error says it found stands where the error is reported,
    and it is not what the error says was expected *)
Theorem C57_found_stands_there : forall fuel o source single a off, o_factory o = true ->
  parse fuel o source single = PReported (Issue PARSE_EXPECTED_TOKEN a off) ->
  exists expected found, a = [("expected", expected); ("actual", found)]%string
    /\ stands (o_epp o) found (skipn (Z.to_nat off) source) /\ differ expected found.
Proof. intros fuel o source single a off Hf H. exact (@found_run _ _ _ _ _ Hf H). Qed.
Theorem C57_found_in_a_list : forall fuel o source single a off, o_factory o = true ->
  parse fuel o source single = PReported (Issue PARSE_EXPECTED_ONE_OF_TOKENS a off) ->
  exists closing found, a = [("expected"%string, lit "'" ++ lit "," ++ lit "' or '" ++ closing ++ lit "'"); ("actual"%string, found)]
    /\ stands (o_epp o) found (skipn (Z.to_nat off) source) /\ found <> lit "," /\ differ closing found.
Proof. intros fuel o source single a off Hf H. exact (@found_run _ _ _ _ _ Hf H). Qed.
(** Outside of type definitions (whose error stands behind the token), what is
    reported as unexpected stands where it is reported; of a [+] this is not claimed. *)
Theorem C57_unexpected_stands_there : forall fuel o source single a off, o_factory o = true ->
  Forall byte source -> ~ contains (lit "type") source ->
  parse fuel o source single = PReported (Issue LEX_UNEXPECTED_TOKEN a off) ->
  exists found, a = [("token"%string, found)] /\ (found = lit "+" \/ stands (o_epp o) found (skipn (Z.to_nat off) source)).
Proof. intros fuel o source single a off Hf HB HN H. exact (@found_run _ _ _ _ _ Hf H (conj HB HN)). Qed.

Definition bare (_ : Z) : bool := false.
Definition plain : opts := mkopts false false false false false true bare.
Definition wordy : opts := mkopts false true true true true true bare.
(** [case $a foo]: a brace is expected and a name found at byte 8;
    [[1, f(1 'x')]]: a string where a comma or the parenthesis is expected;
    [f() |$a ? { 3]: a question mark where a comma or a bar is expected *)
Example C57_case :
  parse 1000 plain (lit "case $a foo") false
  = PReported (Issue PARSE_EXPECTED_TOKEN [("expected", lit "{"); ("actual", lit "identifier")]%string 8)
  /\ parse 1000 wordy (lit "[1, f(1 'x')]") false
  = PReported (Issue PARSE_EXPECTED_ONE_OF_TOKENS [("expected"%string, lit "',' or ')'"); ("actual"%string, lit "string literal")] 8)
  /\ parse 1000 plain (lit "f() |$a ? { 3") false
  = PReported (Issue PARSE_EXPECTED_ONE_OF_TOKENS [("expected"%string, lit "',' or '|'"); ("actual"%string, lit "?")] 8).
Proof. repeat split; vm_compute; reflexivity. Qed.
(** What the specification excepts: a string with an interpolation is reported
    behind its last interpolation (at [c] in [f(1 "a${b}c")]), and a bar may be
    found where a bar is expected ([f() |$a| 3]). *)
Example C57_exceptions :
  parse 1000 plain (lit "f(1 ""a${b}c"")") false
  = PReported (Issue PARSE_EXPECTED_ONE_OF_TOKENS [("expected"%string, lit "',' or ')'"); ("actual"%string, lit "dq string literal")] 10)
  /\ parse 1000 plain (lit "f() |$a| 3") false
  = PReported (Issue PARSE_EXPECTED_ONE_OF_TOKENS [("expected"%string, lit "',' or '|'"); ("actual"%string, lit "|")] 7).
Proof. repeat split; vm_compute; reflexivity. Qed.
(** [$a = ] ends too early; [1 + €2] has a character that begins no token;
    [f(~1)]; [type A foo] is reported behind [foo], and [f(+ 1)] behind the plus *)
Example C57_unexpected :
  parse 1000 plain (lit "$a = ") false = PReported (Issue LEX_UNEXPECTED_TOKEN [("token"%string, lit "EOF")] 5)
  /\ parse 1000 plain (lit "1 + " ++ [226; 130; 172] ++ lit "2") false = PReported (Issue LEX_UNEXPECTED_TOKEN [("token"%string, [226; 130; 172])] 4)
  /\ parse 1000 wordy (lit "f(~1)") false = PReported (Issue LEX_UNEXPECTED_TOKEN [("token"%string, lit "~")] 2)
  /\ parse 1000 plain (lit "type A foo") false = PReported (Issue LEX_UNEXPECTED_TOKEN [("token"%string, lit "identifier")] 10)
  /\ parse 1000 plain (lit "f(+ 1)") false = PReported (Issue LEX_UNEXPECTED_TOKEN [("token"%string, lit "+")] 3).
Proof. repeat split; vm_compute; reflexivity. Qed.
(** [stands] says something: no name stands before a digit, no brace before a parenthesis *)
Example C57_says : ~ stands false (lit "identifier") (lit "1") /\ ~ stands false (lit "{") (lit "(") /\ ~ stands false (lit "EOF") (lit "EOF").
Proof.
  repeat split; intros H; inversion H; subst;
  repeat match goal with
  | K : leads _ _ |- _ => destruct K as [? K]; discriminate K
  | K : one_of _ _ \/ _ |- _ => destruct K as [(? & ? & K & ? & ? & [L|[]] & R)|K]; [injection K as <- <-; injection L as <- <-; vm_compute in R; intuition congruence|]
  | K : ~ In _ kinds |- _ => exfalso; apply K; vm_compute; tauto
  | K : false = true |- _ => discriminate K
  end.
Qed.
Print Assumptions C57_found_stands_there.
Print Assumptions C57_found_in_a_list.
Print Assumptions C57_unexpected_stands_there.
