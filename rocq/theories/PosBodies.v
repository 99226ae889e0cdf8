(** * PosBodies: the bodies of the parser's functions *)
From Verif Require Import Base Float Tokens Ast Ctx Locator Lexer Parser Utf8Facts PosBase PosLex PosSpec PosTok PosParse.
From Coq Require Import Lia ZifyBool.

Ltac p_clear :=
  repeat match goal with S : S_ _ _ _ _ _ _ ?d |- wpf _ _ _ ?c _ => lazymatch d with c => fail | _ => clear S end end.
Ltac p_rng := match goal with R : rel _ _ _ ?q |- _ => lazymatch goal with _ : 0 <= qp q |- _ => fail | _ => destruct (rel_ok R) as ((? & ?) & (? & ?) & (? & ?)) end end.
Ltac p_conj := repeat match goal with H : _ /\ _ |- _ => destruct H | H : match Some _ with _ => _ end |- _ => cbv beta iota in H | H : match None with _ => _ end |- _ => cbv beta iota in H end.
Ltac p_intro := intros; cbv beta iota; repeat p_rng; p_conj; try p_clear.
(** the token is not the end *)
Ltac p_tok := first [discriminate | assumption | let E := fresh in intros _; intros E; rewrite E in *; (discriminate || congruence) | let E := fresh in intros E; rewrite E in *; (discriminate || congruence)].
Ltac p_rank := first [discriminate | assumption | intros _; cbn [level_rank]; lia | let E := fresh in intros E; match goal with H : _ = false -> _ < _ |- _ => specialize (H E); lia end].
Ltac p_o := first [assumption | lia].
Ltac p_call L := eapply L; [p_o|p_o|p_o|x_s|eassumption|first [p_rank | p_tok]|..].
Ltac p_here L := eapply L; [x_s|eassumption|first [p_rank | p_tok]|..].
Ltac p_good :=
  intros; repeat match goal with H : good ?T ?e -> good ?T ?a |- _ => lazymatch goal with K : good T a |- _ => fail | _ => assert (good T a) by (apply H; first [assumption | zz]) end end;
  first [assumption | zz].
Ltac p_zz := first [assumption | zz | p_good | p_tok | exact Logic.I | split; [first [assumption|zz]|first [p_tok|split; [first [assumption|zz]|p_tok]]]].
Ltac p_sub := fail.
Ltac x_hook ::=
  match goal with
  | |- wpf _ _ (let _ := _ in _) _ _ => cbv zeta
  | |- wpf _ _ tokenString _ _ => eapply r_tokenString; [x_s|intros]; cbv beta iota
  | |- wpf _ _ (span _) _ _ => eapply r_span; [x_s|intros]; cbv beta iota
  | |- wpf _ _ (assertToken _) _ _ => eapply r_assertToken; [x_s|try zz|intros]; cbv beta iota
  | |- wpf _ _ unexpectedToken _ _ => eapply r_unexpected; [x_s|try zz]
  | |- wpf _ _ toTokenStart _ _ => eapply r_toStart; [x_s|x_in]; cbv beta iota
  | |- wpf _ _ (addDefinition _) _ _ => eapply r_addDef; [x_s|x_in]; cbv beta iota
  | |- wpf _ _ (pushName _) _ _ => eapply r_push; [x_s|x_in]; cbv beta iota
  | |- wpf _ _ popName _ _ => eapply r_pop'; [x_s|x_in]; cbv beta iota
  | |- wpf _ _ (qualifiedName _) _ _ => eapply r_qualified; [x_s|intros]; cbv beta iota
  | |- wpf _ _ (transformCalls _) _ _ => eapply r_transform; [x_s|intros]; cbv beta iota
  | |- wpf _ _ (resourceShape _) _ _ => eapply r_shape; [x_s|intros]; cbv beta iota
  | |- wpf _ _ value_expr _ _ => eapply r_value_expr; [x_s|intros]; cbv beta iota
  | |- wpf _ _ (?r _ FNextToken) _ _ => first [eapply c_nt; [p_o|p_o|p_o|x_s|eassumption|solve [p_tok]|p_intro] | eapply c_nt0; [p_o|p_o|p_o|x_s|eassumption|p_intro]]
  | |- wpf _ _ (?r _ (FParse _ _)) _ _ => p_call c_parse; p_intro
  | |- wpf _ _ (?r _ (FStatements _ _)) _ _ => p_call c_statements; p_intro
  | |- wpf _ _ (?r _ (FCommas _)) _ _ => p_call c_commas; p_intro
  | |- wpf _ _ (?r _ (FExpressions _ _ _)) _ _ => p_call c_expressions; p_intro
  | |- wpf _ _ (?r _ FRelationship) _ _ => p_call c_relationship; p_intro
  | |- wpf _ _ (?r _ (FRelLoop _)) _ _ => p_call c_relLoop; [p_zz|p_intro]
  | |- wpf _ _ (?r _ FAssignment) _ _ => p_call c_assignment; p_intro
  | |- wpf _ _ (?r _ (FAssignLoop _)) _ _ => p_call c_assignLoop; [p_zz|p_intro]
  | |- wpf _ _ (?r _ FExpression) _ _ => p_call c_expression; p_intro
  | |- wpf _ _ (?r _ (FSelectLoop _)) _ _ => p_call c_selectLoop; p_intro
  | |- wpf _ _ (?r _ (FLevel _)) _ _ => p_call c_level; p_intro
  | |- wpf _ _ (?r _ (FLevelLoop _ _)) _ _ => p_call c_levelLoop; p_intro
  | |- wpf _ _ (?r _ FUnary) _ _ => p_call c_unary; p_intro
  | |- wpf _ _ (?r _ FPrimary) _ _ => p_call c_primary; p_intro
  | |- wpf _ _ (?r _ (FPrimaryLoop _)) _ _ => p_call c_primaryLoop; p_intro
  | |- wpf _ _ (?r _ FAtom) _ _ => p_call c_atom; p_intro
  | |- wpf _ _ (?r _ (FCall _)) _ _ => p_call c_call; [p_tok|p_intro]
  | |- wpf _ _ (?r _ FParameterType) _ _ => p_call c_paramType; p_intro
  | |- wpf _ _ (?r _ (FIf _)) _ _ => p_call c_if; [p_tok|p_intro]
  | |- wpf _ _ (?r _ (FCaseOptions _)) _ _ => p_call c_caseOptions; p_intro
  | |- wpf _ _ (?r _ (FResourceExpr _ _ _)) _ _ => p_call c_resource; [p_zz|p_intro]
  | |- wpf _ _ (?r _ (FBodies _ _)) _ _ => p_call c_bodies; [try exact Logic.I; try p_zz|p_intro]
  | |- wpf _ _ (?r _ (FAttrOps _)) _ _ => p_call c_attrOps; p_intro
  | |- wpf _ _ (?r _ (FHostnames _)) _ _ => p_call c_hostnames; p_intro
  | |- wpf _ _ (?r _ (FDotted _ _)) _ _ => p_call c_dotted; [p_zz|p_intro]
  | |- wpf _ _ (?r _ (FActivities _)) _ _ => p_call c_activities; p_intro
  | |- wpf _ _ (?r _ (FStepDecl _ _ _ _)) _ _ => p_call c_step; [p_zz|p_intro]
  | |- wpf _ _ (?r _ (FEppLoop _)) _ _ => p_call c_eppLoop; p_intro
  | |- _ => p_sub
  end.
Ltac x_case ::=
  match goal with
  | |- wpf _ _ (if ?b then _ else _) _ _ => lazymatch type of b with bool => idtac end; let E := fresh "Eb" in case_eq b; intros E
  | |- wpf _ _ (match ?b with _ => _ end) _ _ => first [is_var b; destruct b | let E := fresh "Et" in case_eq b; intros; try discriminate]
  end.
Ltac p_back :=
  let K := fresh "K" in intros K;
  first [discriminate K | congruence | solve [auto] | split; [assumption|reflexivity]
  | match goal with H : qname ?x = true -> _ /\ _ |- _ => destruct (H K) as [? ?]; subst end; first [discriminate | congruence | solve [auto] | split; [assumption|reflexivity]]].
Ltac p_tokeq := apply tok_eqb_eq; match goal with E : tok_eqb _ _ = true |- _ => exact E | E : negb (tok_eqb ?a ?b) = false |- tok_eqb ?a ?b = true => now apply Bool.negb_false_iff end.
(** the end of a branch *)
Ltac p_fin :=
  match goal with HQ : forall a q' c', _, S : S_ _ true (qp ?q) _ _ _ ?c |- ?Q ?a ?c => apply (HQ a q c) end;
  try first [assumption | exact Logic.I | eapply rel_any; eassumption | eapply rel_weak; eassumption | zz | reflexivity | split; [zz|assumption] | p_good | p_back | p_tokeq].
Ltac yy := repeat first [x1 | x_case; p_conj]; try solve [p_fin].

Section Helpers.
Variables (T : str) (n : nat) (rec : forall A, fn A -> M A).
Hypothesis Hrec : respects T n rec.
Notation L := (LT T).
Variables (q0 : st) (r0 : Z).
Hypotheses (O0 : okq T q0) (R0 : 5 <= r0).
Notation wpf := (wpf (Ep T) (Z.of_nat n + 1 < BC T q0 r0)).
Notation rel := (rel T q0).

Lemma h_keyword  b q c (Q : expr -> ctx -> Prop) : Sq T q c -> rel b q -> (b = false -> 34 < r0) -> 
  (forall a q' c', good T a -> rel true q' -> Sq T q' c' -> Q a c') -> wpf (handleKeyword rec ) c Q.
Proof.
  intros Hs HR HB HQ. p_conj. p_rng. unfold handleKeyword. yy.
Qed.
Ltac p_sub ::= match goal with
  | |- PosBase.wpf _ _ (handleKeyword _ ) _ _ => p_here h_keyword; p_intro
  end.
Lemma h_argument  b q c (Q : expr -> ctx -> Prop) : Sq T q c -> rel b q -> (b = false -> 34 < r0) -> 
  (forall a q' c', good T a -> rel true q' -> Sq T q' c' -> Q a c') -> wpf (argument rec ) c Q.
Proof.
  intros Hs HR HB HQ. p_conj. p_rng. unfold argument. yy.
Qed.
Ltac p_sub ::= match goal with
  | |- PosBase.wpf _ _ (handleKeyword _ ) _ _ => p_here h_keyword; p_intro
  | |- PosBase.wpf _ _ (argument _ ) _ _ => p_here h_argument; p_intro
  end.
Lemma h_keyed  b q c (Q : expr -> ctx -> Prop) : Sq T q c -> rel b q -> (b = false -> 34 < r0) -> 
  (forall a q' c', good T a -> rel true q' -> Sq T q' c' -> Q a c') -> wpf (keyedEntry rec ) c Q.
Proof.
  intros Hs HR HB HQ. p_conj. p_rng. unfold keyedEntry. yy.
Qed.
Ltac p_sub ::= match goal with
  | |- PosBase.wpf _ _ (handleKeyword _ ) _ _ => p_here h_keyword; p_intro
  | |- PosBase.wpf _ _ (argument _ ) _ _ => p_here h_argument; p_intro
  | |- PosBase.wpf _ _ (keyedEntry _ ) _ _ => p_here h_keyed; p_intro
  end.
Lemma h_selEntry  b q c (Q : expr -> ctx -> Prop) : Sq T q c -> rel b q -> (b = false -> 30 < r0) -> 
  (forall a q' c', good T a -> rel true q' -> Sq T q' c' -> Q a c') -> wpf (selectorEntry rec ) c Q.
Proof.
  intros Hs HR HB HQ. p_conj. p_rng. unfold selectorEntry. yy.
Qed.
Ltac p_sub ::= match goal with
  | |- PosBase.wpf _ _ (handleKeyword _ ) _ _ => p_here h_keyword; p_intro
  | |- PosBase.wpf _ _ (argument _ ) _ _ => p_here h_argument; p_intro
  | |- PosBase.wpf _ _ (keyedEntry _ ) _ _ => p_here h_keyed; p_intro
  | |- PosBase.wpf _ _ (selectorEntry _ ) _ _ => p_here h_selEntry; p_intro
  end.
Lemma h_typeName  b q c (Q : option expr -> ctx -> Prop) : Sq T q c -> rel b q -> 
  (forall a q' c', match a with Some e => good T e /\ rel true q' | None => True end -> rel b q' -> Sq T q' c' -> Q a c') -> wpf (typeName rec ) c Q.
Proof.
  intros Hs HR HQ. p_conj. p_rng. unfold typeName. yy.
Qed.
Ltac p_sub ::= match goal with
  | |- PosBase.wpf _ _ (handleKeyword _ ) _ _ => p_here h_keyword; p_intro
  | |- PosBase.wpf _ _ (argument _ ) _ _ => p_here h_argument; p_intro
  | |- PosBase.wpf _ _ (keyedEntry _ ) _ _ => p_here h_keyed; p_intro
  | |- PosBase.wpf _ _ (selectorEntry _ ) _ _ => p_here h_selEntry; p_intro
  | |- PosBase.wpf _ _ (typeName _ ) _ _ => (eapply h_typeName; [x_s|eassumption|..]); p_intro
  end.
Lemma h_array  b q c (Q : list expr -> ctx -> Prop) : Sq T q c -> rel b q -> (b = false -> 36 < r0) -> 
  (forall a q' c', qt q' = TRb -> rel b q' -> Sq T q' c' -> Q a c') -> wpf (arrayExpression rec ) c Q.
Proof.
  intros Hs HR HB HQ. p_conj. p_rng. unfold arrayExpression. yy.
Qed.
Ltac p_sub ::= match goal with
  | |- PosBase.wpf _ _ (handleKeyword _ ) _ _ => p_here h_keyword; p_intro
  | |- PosBase.wpf _ _ (argument _ ) _ _ => p_here h_argument; p_intro
  | |- PosBase.wpf _ _ (keyedEntry _ ) _ _ => p_here h_keyed; p_intro
  | |- PosBase.wpf _ _ (selectorEntry _ ) _ _ => p_here h_selEntry; p_intro
  | |- PosBase.wpf _ _ (typeName _ ) _ _ => (eapply h_typeName; [x_s|eassumption|..]); p_intro
  | |- PosBase.wpf _ _ (arrayExpression _ ) _ _ => p_here h_array; p_intro
  end.
Definition nope q := mkst (qs q) (qv q) (qt q) (qs q).
Lemma h_identifier b q c (Q : option str -> ctx -> Prop) : Sq T q c -> rel b q ->
  (forall a q' c', rel true q' -> Sq T q' c' -> Q (Some a) c') ->
  (forall c', weight (qt q) <= 1 -> Sq T (nope q) c' -> Q None c') -> wpf (identifier rec) c Q.
Proof.
  intros Hs HR HQ HN. p_rng. unfold identifier. repeat first [x1 | x_case]; try (eapply HQ; eassumption).
  apply HN; [|eassumption]. unfold weight. rewrite Eb. match goal with E : keyword _ = None |- _ => rewrite E end. destruct (tok_eqb (qt q) TEnd); lia.
Qed.
Lemma h_identifierExpr b q c (Q : option (pos * str) -> ctx -> Prop) : Sq T q c -> rel b q ->
  (forall p s q' c', rel true q' -> Sq T q' c' -> Q (Some (p, s)) c') ->
  (forall c', Sq T (nope q) c' -> Q None c') -> wpf (identifierExpr rec) c Q.
Proof.
  intros Hs HR HQ HN. p_rng. unfold identifierExpr. repeat first [x1 | x_case]; try (eapply HQ; eassumption).
  apply HN. eassumption.
Qed.

Ltac p_sub ::= match goal with
  | |- PosBase.wpf _ _ (handleKeyword _ ) _ _ => p_here h_keyword; p_intro
  | |- PosBase.wpf _ _ (argument _ ) _ _ => p_here h_argument; p_intro
  | |- PosBase.wpf _ _ (keyedEntry _ ) _ _ => p_here h_keyed; p_intro
  | |- PosBase.wpf _ _ (selectorEntry _ ) _ _ => p_here h_selEntry; p_intro
  | |- PosBase.wpf _ _ (typeName _ ) _ _ => (eapply h_typeName; [x_s|eassumption|..]); p_intro
  | |- PosBase.wpf _ _ (arrayExpression _ ) _ _ => p_here h_array; p_intro
  | |- PosBase.wpf _ _ (identifier _) _ _ => eapply h_identifier; [x_s|eassumption|p_intro|p_intro; cbn [nope qp qv qt qs] in *]
  end.
Ltac p_sub ::= match goal with
  | |- PosBase.wpf _ _ (handleKeyword _ ) _ _ => p_here h_keyword; p_intro
  | |- PosBase.wpf _ _ (argument _ ) _ _ => p_here h_argument; p_intro
  | |- PosBase.wpf _ _ (keyedEntry _ ) _ _ => p_here h_keyed; p_intro
  | |- PosBase.wpf _ _ (selectorEntry _ ) _ _ => p_here h_selEntry; p_intro
  | |- PosBase.wpf _ _ (typeName _ ) _ _ => (eapply h_typeName; [x_s|eassumption|..]); p_intro
  | |- PosBase.wpf _ _ (arrayExpression _ ) _ _ => p_here h_array; p_intro
  | |- PosBase.wpf _ _ (identifier _) _ _ => eapply h_identifier; [x_s|eassumption|p_intro|p_intro; cbn [nope qp qv qt qs] in *]
  | |- PosBase.wpf _ _ (identifierExpr _) _ _ => eapply h_identifierExpr; [x_s|eassumption|p_intro|p_intro; cbn [nope qp qv qt qs] in *]
  end.
Lemma h_paramTypeBody  b q c (Q : expr -> ctx -> Prop) : Sq T q c -> rel b q -> 
  (forall a q' c', good T a -> rel true q' -> Sq T q' c' -> Q a c') -> wpf (parameterType_body rec ) c Q.
Proof.
  intros Hs HR HQ. p_conj. p_rng. unfold parameterType_body. yy.
Qed.
Ltac p_sub ::= match goal with
  | |- PosBase.wpf _ _ (handleKeyword _ ) _ _ => p_here h_keyword; p_intro
  | |- PosBase.wpf _ _ (argument _ ) _ _ => p_here h_argument; p_intro
  | |- PosBase.wpf _ _ (keyedEntry _ ) _ _ => p_here h_keyed; p_intro
  | |- PosBase.wpf _ _ (selectorEntry _ ) _ _ => p_here h_selEntry; p_intro
  | |- PosBase.wpf _ _ (typeName _ ) _ _ => (eapply h_typeName; [x_s|eassumption|..]); p_intro
  | |- PosBase.wpf _ _ (arrayExpression _ ) _ _ => p_here h_array; p_intro
  | |- PosBase.wpf _ _ (identifier _) _ _ => eapply h_identifier; [x_s|eassumption|p_intro|p_intro; cbn [nope qp qv qt qs] in *]
  | |- PosBase.wpf _ _ (identifierExpr _) _ _ => eapply h_identifierExpr; [x_s|eassumption|p_intro|p_intro; cbn [nope qp qv qt qs] in *]
  | |- PosBase.wpf _ _ (parameterType_body _ ) _ _ => (eapply h_paramTypeBody; [x_s|eassumption|..]); p_intro
  end.
Lemma h_paramList prod b q c (Q : list expr -> ctx -> Prop) : Sq T q c -> rel b q -> 
  (forall a q' c', rel b q' -> Sq T q' c' -> Q a c') -> wpf (parameterListOf rec  prod) c Q.
Proof.
  intros Hs HR HQ. p_conj. p_rng. unfold parameterListOf. yy.
Qed.
Ltac p_sub ::= match goal with
  | |- PosBase.wpf _ _ (handleKeyword _ ) _ _ => p_here h_keyword; p_intro
  | |- PosBase.wpf _ _ (argument _ ) _ _ => p_here h_argument; p_intro
  | |- PosBase.wpf _ _ (keyedEntry _ ) _ _ => p_here h_keyed; p_intro
  | |- PosBase.wpf _ _ (selectorEntry _ ) _ _ => p_here h_selEntry; p_intro
  | |- PosBase.wpf _ _ (typeName _ ) _ _ => (eapply h_typeName; [x_s|eassumption|..]); p_intro
  | |- PosBase.wpf _ _ (arrayExpression _ ) _ _ => p_here h_array; p_intro
  | |- PosBase.wpf _ _ (identifier _) _ _ => eapply h_identifier; [x_s|eassumption|p_intro|p_intro; cbn [nope qp qv qt qs] in *]
  | |- PosBase.wpf _ _ (identifierExpr _) _ _ => eapply h_identifierExpr; [x_s|eassumption|p_intro|p_intro; cbn [nope qp qv qt qs] in *]
  | |- PosBase.wpf _ _ (parameterType_body _ ) _ _ => (eapply h_paramTypeBody; [x_s|eassumption|..]); p_intro
  | |- PosBase.wpf _ _ (parameterListOf _ _) _ _ => (eapply h_paramList; [x_s|eassumption|..]); p_intro
  end.
Lemma h_optParamType  b q c (Q : option expr -> ctx -> Prop) : Sq T q c -> rel b q -> (b = false -> 5 < r0) -> 
  (forall a q' c', match a with Some _ => rel true q' | None => q' = q end -> rel b q' -> Sq T q' c' -> Q a c') -> wpf (optParameterType rec ) c Q.
Proof.
  intros Hs HR HB HQ. p_conj. p_rng. unfold optParameterType. yy.
Qed.
Ltac p_sub ::= match goal with
  | |- PosBase.wpf _ _ (handleKeyword _ ) _ _ => p_here h_keyword; p_intro
  | |- PosBase.wpf _ _ (argument _ ) _ _ => p_here h_argument; p_intro
  | |- PosBase.wpf _ _ (keyedEntry _ ) _ _ => p_here h_keyed; p_intro
  | |- PosBase.wpf _ _ (selectorEntry _ ) _ _ => p_here h_selEntry; p_intro
  | |- PosBase.wpf _ _ (typeName _ ) _ _ => (eapply h_typeName; [x_s|eassumption|..]); p_intro
  | |- PosBase.wpf _ _ (arrayExpression _ ) _ _ => p_here h_array; p_intro
  | |- PosBase.wpf _ _ (identifier _) _ _ => eapply h_identifier; [x_s|eassumption|p_intro|p_intro; cbn [nope qp qv qt qs] in *]
  | |- PosBase.wpf _ _ (identifierExpr _) _ _ => eapply h_identifierExpr; [x_s|eassumption|p_intro|p_intro; cbn [nope qp qv qt qs] in *]
  | |- PosBase.wpf _ _ (parameterType_body _ ) _ _ => (eapply h_paramTypeBody; [x_s|eassumption|..]); p_intro
  | |- PosBase.wpf _ _ (parameterListOf _ _) _ _ => (eapply h_paramList; [x_s|eassumption|..]); p_intro
  | |- PosBase.wpf _ _ (optParameterType _ ) _ _ => p_here h_optParamType; p_intro
  end.
Lemma h_paramName  b q c (Q : str -> ctx -> Prop) : Sq T q c -> rel b q -> 
  (forall a q' c', rel true q' -> Sq T q' c' -> Q a c') -> wpf (parameterName rec ) c Q.
Proof.
  intros Hs HR HQ. p_conj. p_rng. unfold parameterName. yy.
Qed.
Ltac p_sub ::= match goal with
  | |- PosBase.wpf _ _ (handleKeyword _ ) _ _ => p_here h_keyword; p_intro
  | |- PosBase.wpf _ _ (argument _ ) _ _ => p_here h_argument; p_intro
  | |- PosBase.wpf _ _ (keyedEntry _ ) _ _ => p_here h_keyed; p_intro
  | |- PosBase.wpf _ _ (selectorEntry _ ) _ _ => p_here h_selEntry; p_intro
  | |- PosBase.wpf _ _ (typeName _ ) _ _ => (eapply h_typeName; [x_s|eassumption|..]); p_intro
  | |- PosBase.wpf _ _ (arrayExpression _ ) _ _ => p_here h_array; p_intro
  | |- PosBase.wpf _ _ (identifier _) _ _ => eapply h_identifier; [x_s|eassumption|p_intro|p_intro; cbn [nope qp qv qt qs] in *]
  | |- PosBase.wpf _ _ (identifierExpr _) _ _ => eapply h_identifierExpr; [x_s|eassumption|p_intro|p_intro; cbn [nope qp qv qt qs] in *]
  | |- PosBase.wpf _ _ (parameterType_body _ ) _ _ => (eapply h_paramTypeBody; [x_s|eassumption|..]); p_intro
  | |- PosBase.wpf _ _ (parameterListOf _ _) _ _ => (eapply h_paramList; [x_s|eassumption|..]); p_intro
  | |- PosBase.wpf _ _ (optParameterType _ ) _ _ => p_here h_optParamType; p_intro
  | |- PosBase.wpf _ _ (parameterName _ ) _ _ => (eapply h_paramName; [x_s|eassumption|..]); p_intro
  end.
Lemma h_parameter  b q c (Q : expr -> ctx -> Prop) : Sq T q c -> rel b q -> (b = false -> 30 < r0) -> 
  (forall a q' c', good T a -> rel true q' -> Sq T q' c' -> Q a c') -> wpf (parameter rec ) c Q.
Proof.
  intros Hs HR HB HQ. p_conj. p_rng. unfold parameter. yy.
Qed.
Ltac p_sub ::= match goal with
  | |- PosBase.wpf _ _ (handleKeyword _ ) _ _ => p_here h_keyword; p_intro
  | |- PosBase.wpf _ _ (argument _ ) _ _ => p_here h_argument; p_intro
  | |- PosBase.wpf _ _ (keyedEntry _ ) _ _ => p_here h_keyed; p_intro
  | |- PosBase.wpf _ _ (selectorEntry _ ) _ _ => p_here h_selEntry; p_intro
  | |- PosBase.wpf _ _ (typeName _ ) _ _ => (eapply h_typeName; [x_s|eassumption|..]); p_intro
  | |- PosBase.wpf _ _ (arrayExpression _ ) _ _ => p_here h_array; p_intro
  | |- PosBase.wpf _ _ (identifier _) _ _ => eapply h_identifier; [x_s|eassumption|p_intro|p_intro; cbn [nope qp qv qt qs] in *]
  | |- PosBase.wpf _ _ (identifierExpr _) _ _ => eapply h_identifierExpr; [x_s|eassumption|p_intro|p_intro; cbn [nope qp qv qt qs] in *]
  | |- PosBase.wpf _ _ (parameterType_body _ ) _ _ => (eapply h_paramTypeBody; [x_s|eassumption|..]); p_intro
  | |- PosBase.wpf _ _ (parameterListOf _ _) _ _ => (eapply h_paramList; [x_s|eassumption|..]); p_intro
  | |- PosBase.wpf _ _ (optParameterType _ ) _ _ => p_here h_optParamType; p_intro
  | |- PosBase.wpf _ _ (parameterName _ ) _ _ => (eapply h_paramName; [x_s|eassumption|..]); p_intro
  | |- PosBase.wpf _ _ (parameter _ ) _ _ => p_here h_parameter; p_intro
  end.
Lemma h_attrAlias  b q c (Q : expr -> ctx -> Prop) : Sq T q c -> rel b q -> 
  (forall a q' c', good T a -> rel true q' -> Sq T q' c' -> Q a c') -> wpf (attributeAlias rec ) c Q.
Proof.
  intros Hs HR HQ. p_conj. p_rng. unfold attributeAlias. yy.
Qed.
Ltac p_sub ::= match goal with
  | |- PosBase.wpf _ _ (handleKeyword _ ) _ _ => p_here h_keyword; p_intro
  | |- PosBase.wpf _ _ (argument _ ) _ _ => p_here h_argument; p_intro
  | |- PosBase.wpf _ _ (keyedEntry _ ) _ _ => p_here h_keyed; p_intro
  | |- PosBase.wpf _ _ (selectorEntry _ ) _ _ => p_here h_selEntry; p_intro
  | |- PosBase.wpf _ _ (typeName _ ) _ _ => (eapply h_typeName; [x_s|eassumption|..]); p_intro
  | |- PosBase.wpf _ _ (arrayExpression _ ) _ _ => p_here h_array; p_intro
  | |- PosBase.wpf _ _ (identifier _) _ _ => eapply h_identifier; [x_s|eassumption|p_intro|p_intro; cbn [nope qp qv qt qs] in *]
  | |- PosBase.wpf _ _ (identifierExpr _) _ _ => eapply h_identifierExpr; [x_s|eassumption|p_intro|p_intro; cbn [nope qp qv qt qs] in *]
  | |- PosBase.wpf _ _ (parameterType_body _ ) _ _ => (eapply h_paramTypeBody; [x_s|eassumption|..]); p_intro
  | |- PosBase.wpf _ _ (parameterListOf _ _) _ _ => (eapply h_paramList; [x_s|eassumption|..]); p_intro
  | |- PosBase.wpf _ _ (optParameterType _ ) _ _ => p_here h_optParamType; p_intro
  | |- PosBase.wpf _ _ (parameterName _ ) _ _ => (eapply h_paramName; [x_s|eassumption|..]); p_intro
  | |- PosBase.wpf _ _ (parameter _ ) _ _ => p_here h_parameter; p_intro
  | |- PosBase.wpf _ _ (attributeAlias _ ) _ _ => (eapply h_attrAlias; [x_s|eassumption|..]); p_intro
  end.
Lemma h_returnParam  b q c (Q : expr -> ctx -> Prop) : Sq T q c -> rel b q -> (b = false -> 5 < r0) -> 
  (forall a q' c', good T a -> rel true q' -> Sq T q' c' -> Q a c') -> wpf (returnParameter rec ) c Q.
Proof.
  intros Hs HR HB HQ. p_conj. p_rng. unfold returnParameter. yy.
Qed.
Ltac p_sub ::= match goal with
  | |- PosBase.wpf _ _ (handleKeyword _ ) _ _ => p_here h_keyword; p_intro
  | |- PosBase.wpf _ _ (argument _ ) _ _ => p_here h_argument; p_intro
  | |- PosBase.wpf _ _ (keyedEntry _ ) _ _ => p_here h_keyed; p_intro
  | |- PosBase.wpf _ _ (selectorEntry _ ) _ _ => p_here h_selEntry; p_intro
  | |- PosBase.wpf _ _ (typeName _ ) _ _ => (eapply h_typeName; [x_s|eassumption|..]); p_intro
  | |- PosBase.wpf _ _ (arrayExpression _ ) _ _ => p_here h_array; p_intro
  | |- PosBase.wpf _ _ (identifier _) _ _ => eapply h_identifier; [x_s|eassumption|p_intro|p_intro; cbn [nope qp qv qt qs] in *]
  | |- PosBase.wpf _ _ (identifierExpr _) _ _ => eapply h_identifierExpr; [x_s|eassumption|p_intro|p_intro; cbn [nope qp qv qt qs] in *]
  | |- PosBase.wpf _ _ (parameterType_body _ ) _ _ => (eapply h_paramTypeBody; [x_s|eassumption|..]); p_intro
  | |- PosBase.wpf _ _ (parameterListOf _ _) _ _ => (eapply h_paramList; [x_s|eassumption|..]); p_intro
  | |- PosBase.wpf _ _ (optParameterType _ ) _ _ => p_here h_optParamType; p_intro
  | |- PosBase.wpf _ _ (parameterName _ ) _ _ => (eapply h_paramName; [x_s|eassumption|..]); p_intro
  | |- PosBase.wpf _ _ (parameter _ ) _ _ => p_here h_parameter; p_intro
  | |- PosBase.wpf _ _ (attributeAlias _ ) _ _ => (eapply h_attrAlias; [x_s|eassumption|..]); p_intro
  | |- PosBase.wpf _ _ (returnParameter _ ) _ _ => p_here h_returnParam; p_intro
  end.
Ltac p_sub ::= match goal with
  | |- PosBase.wpf _ _ (handleKeyword _ ) _ _ => p_here h_keyword; p_intro
  | |- PosBase.wpf _ _ (argument _ ) _ _ => p_here h_argument; p_intro
  | |- PosBase.wpf _ _ (keyedEntry _ ) _ _ => p_here h_keyed; p_intro
  | |- PosBase.wpf _ _ (selectorEntry _ ) _ _ => p_here h_selEntry; p_intro
  | |- PosBase.wpf _ _ (typeName _ ) _ _ => (eapply h_typeName; [x_s|eassumption|..]); p_intro
  | |- PosBase.wpf _ _ (arrayExpression _ ) _ _ => p_here h_array; p_intro
  | |- PosBase.wpf _ _ (identifier _) _ _ => eapply h_identifier; [x_s|eassumption|p_intro|p_intro; cbn [nope qp qv qt qs] in *]
  | |- PosBase.wpf _ _ (identifierExpr _) _ _ => eapply h_identifierExpr; [x_s|eassumption|p_intro|p_intro; cbn [nope qp qv qt qs] in *]
  | |- PosBase.wpf _ _ (parameterType_body _ ) _ _ => (eapply h_paramTypeBody; [x_s|eassumption|..]); p_intro
  | |- PosBase.wpf _ _ (parameterListOf _ _) _ _ => (eapply h_paramList; [x_s|eassumption|..]); p_intro
  | |- PosBase.wpf _ _ (optParameterType _ ) _ _ => p_here h_optParamType; p_intro
  | |- PosBase.wpf _ _ (parameterName _ ) _ _ => (eapply h_paramName; [x_s|eassumption|..]); p_intro
  | |- PosBase.wpf _ _ (parameter _ ) _ _ => p_here h_parameter; p_intro
  | |- PosBase.wpf _ _ (attributeAlias _ ) _ _ => (eapply h_attrAlias; [x_s|eassumption|..]); p_intro
  | |- PosBase.wpf _ _ (returnParameter _ ) _ _ => p_here h_returnParam; p_intro
  | |- PosBase.wpf _ _ (parameterList _) _ _ => unfold parameterList
  end.
Ltac p_sub ::= match goal with
  | |- PosBase.wpf _ _ (handleKeyword _ ) _ _ => p_here h_keyword; p_intro
  | |- PosBase.wpf _ _ (argument _ ) _ _ => p_here h_argument; p_intro
  | |- PosBase.wpf _ _ (keyedEntry _ ) _ _ => p_here h_keyed; p_intro
  | |- PosBase.wpf _ _ (selectorEntry _ ) _ _ => p_here h_selEntry; p_intro
  | |- PosBase.wpf _ _ (typeName _ ) _ _ => (eapply h_typeName; [x_s|eassumption|..]); p_intro
  | |- PosBase.wpf _ _ (arrayExpression _ ) _ _ => p_here h_array; p_intro
  | |- PosBase.wpf _ _ (identifier _) _ _ => eapply h_identifier; [x_s|eassumption|p_intro|p_intro; cbn [nope qp qv qt qs] in *]
  | |- PosBase.wpf _ _ (identifierExpr _) _ _ => eapply h_identifierExpr; [x_s|eassumption|p_intro|p_intro; cbn [nope qp qv qt qs] in *]
  | |- PosBase.wpf _ _ (parameterType_body _ ) _ _ => (eapply h_paramTypeBody; [x_s|eassumption|..]); p_intro
  | |- PosBase.wpf _ _ (parameterListOf _ _) _ _ => (eapply h_paramList; [x_s|eassumption|..]); p_intro
  | |- PosBase.wpf _ _ (optParameterType _ ) _ _ => p_here h_optParamType; p_intro
  | |- PosBase.wpf _ _ (parameterName _ ) _ _ => (eapply h_paramName; [x_s|eassumption|..]); p_intro
  | |- PosBase.wpf _ _ (parameter _ ) _ _ => p_here h_parameter; p_intro
  | |- PosBase.wpf _ _ (attributeAlias _ ) _ _ => (eapply h_attrAlias; [x_s|eassumption|..]); p_intro
  | |- PosBase.wpf _ _ (returnParameter _ ) _ _ => p_here h_returnParam; p_intro
  | |- PosBase.wpf _ _ (parameterList _) _ _ => unfold parameterList
  | |- PosBase.wpf _ _ (returnParameters _) _ _ => unfold returnParameters
  end.
Ltac p_sub ::= match goal with
  | |- PosBase.wpf _ _ (handleKeyword _ ) _ _ => p_here h_keyword; p_intro
  | |- PosBase.wpf _ _ (argument _ ) _ _ => p_here h_argument; p_intro
  | |- PosBase.wpf _ _ (keyedEntry _ ) _ _ => p_here h_keyed; p_intro
  | |- PosBase.wpf _ _ (selectorEntry _ ) _ _ => p_here h_selEntry; p_intro
  | |- PosBase.wpf _ _ (typeName _ ) _ _ => (eapply h_typeName; [x_s|eassumption|..]); p_intro
  | |- PosBase.wpf _ _ (arrayExpression _ ) _ _ => p_here h_array; p_intro
  | |- PosBase.wpf _ _ (identifier _) _ _ => eapply h_identifier; [x_s|eassumption|p_intro|p_intro; cbn [nope qp qv qt qs] in *]
  | |- PosBase.wpf _ _ (identifierExpr _) _ _ => eapply h_identifierExpr; [x_s|eassumption|p_intro|p_intro; cbn [nope qp qv qt qs] in *]
  | |- PosBase.wpf _ _ (parameterType_body _ ) _ _ => (eapply h_paramTypeBody; [x_s|eassumption|..]); p_intro
  | |- PosBase.wpf _ _ (parameterListOf _ _) _ _ => (eapply h_paramList; [x_s|eassumption|..]); p_intro
  | |- PosBase.wpf _ _ (optParameterType _ ) _ _ => p_here h_optParamType; p_intro
  | |- PosBase.wpf _ _ (parameterName _ ) _ _ => (eapply h_paramName; [x_s|eassumption|..]); p_intro
  | |- PosBase.wpf _ _ (parameter _ ) _ _ => p_here h_parameter; p_intro
  | |- PosBase.wpf _ _ (attributeAlias _ ) _ _ => (eapply h_attrAlias; [x_s|eassumption|..]); p_intro
  | |- PosBase.wpf _ _ (returnParameter _ ) _ _ => p_here h_returnParam; p_intro
  | |- PosBase.wpf _ _ (parameterList _) _ _ => unfold parameterList
  | |- PosBase.wpf _ _ (returnParameters _) _ _ => unfold returnParameters
  | |- PosBase.wpf _ _ (lambdaParameterList _) _ _ => unfold lambdaParameterList
  end.
Lemma h_stepProperty  b q c (Q : expr -> ctx -> Prop) : Sq T q c -> rel b q -> 
  (forall a q' c', good T a -> rel true q' -> Sq T q' c' -> Q a c') -> wpf (stepProperty rec ) c Q.
Proof.
  intros Hs HR HQ. p_conj. p_rng. unfold stepProperty. yy.
Qed.
Ltac p_sub ::= match goal with
  | |- PosBase.wpf _ _ (handleKeyword _ ) _ _ => p_here h_keyword; p_intro
  | |- PosBase.wpf _ _ (argument _ ) _ _ => p_here h_argument; p_intro
  | |- PosBase.wpf _ _ (keyedEntry _ ) _ _ => p_here h_keyed; p_intro
  | |- PosBase.wpf _ _ (selectorEntry _ ) _ _ => p_here h_selEntry; p_intro
  | |- PosBase.wpf _ _ (typeName _ ) _ _ => (eapply h_typeName; [x_s|eassumption|..]); p_intro
  | |- PosBase.wpf _ _ (arrayExpression _ ) _ _ => p_here h_array; p_intro
  | |- PosBase.wpf _ _ (identifier _) _ _ => eapply h_identifier; [x_s|eassumption|p_intro|p_intro; cbn [nope qp qv qt qs] in *]
  | |- PosBase.wpf _ _ (identifierExpr _) _ _ => eapply h_identifierExpr; [x_s|eassumption|p_intro|p_intro; cbn [nope qp qv qt qs] in *]
  | |- PosBase.wpf _ _ (parameterType_body _ ) _ _ => (eapply h_paramTypeBody; [x_s|eassumption|..]); p_intro
  | |- PosBase.wpf _ _ (parameterListOf _ _) _ _ => (eapply h_paramList; [x_s|eassumption|..]); p_intro
  | |- PosBase.wpf _ _ (optParameterType _ ) _ _ => p_here h_optParamType; p_intro
  | |- PosBase.wpf _ _ (parameterName _ ) _ _ => (eapply h_paramName; [x_s|eassumption|..]); p_intro
  | |- PosBase.wpf _ _ (parameter _ ) _ _ => p_here h_parameter; p_intro
  | |- PosBase.wpf _ _ (attributeAlias _ ) _ _ => (eapply h_attrAlias; [x_s|eassumption|..]); p_intro
  | |- PosBase.wpf _ _ (returnParameter _ ) _ _ => p_here h_returnParam; p_intro
  | |- PosBase.wpf _ _ (parameterList _) _ _ => unfold parameterList
  | |- PosBase.wpf _ _ (returnParameters _) _ _ => unfold returnParameters
  | |- PosBase.wpf _ _ (lambdaParameterList _) _ _ => unfold lambdaParameterList
  | |- PosBase.wpf _ _ (stepProperty _ ) _ _ => (eapply h_stepProperty; [x_s|eassumption|..]); p_intro
  end.
Lemma h_stateAttr  b q c (Q : expr -> ctx -> Prop) : Sq T q c -> rel b q -> 
  (forall a q' c', good T a -> rel true q' -> Sq T q' c' -> Q a c') -> wpf (stateAttribute rec ) c Q.
Proof.
  intros Hs HR HQ. p_conj. p_rng. unfold stateAttribute. yy.
Qed.
Ltac p_sub ::= match goal with
  | |- PosBase.wpf _ _ (handleKeyword _ ) _ _ => p_here h_keyword; p_intro
  | |- PosBase.wpf _ _ (argument _ ) _ _ => p_here h_argument; p_intro
  | |- PosBase.wpf _ _ (keyedEntry _ ) _ _ => p_here h_keyed; p_intro
  | |- PosBase.wpf _ _ (selectorEntry _ ) _ _ => p_here h_selEntry; p_intro
  | |- PosBase.wpf _ _ (typeName _ ) _ _ => (eapply h_typeName; [x_s|eassumption|..]); p_intro
  | |- PosBase.wpf _ _ (arrayExpression _ ) _ _ => p_here h_array; p_intro
  | |- PosBase.wpf _ _ (identifier _) _ _ => eapply h_identifier; [x_s|eassumption|p_intro|p_intro; cbn [nope qp qv qt qs] in *]
  | |- PosBase.wpf _ _ (identifierExpr _) _ _ => eapply h_identifierExpr; [x_s|eassumption|p_intro|p_intro; cbn [nope qp qv qt qs] in *]
  | |- PosBase.wpf _ _ (parameterType_body _ ) _ _ => (eapply h_paramTypeBody; [x_s|eassumption|..]); p_intro
  | |- PosBase.wpf _ _ (parameterListOf _ _) _ _ => (eapply h_paramList; [x_s|eassumption|..]); p_intro
  | |- PosBase.wpf _ _ (optParameterType _ ) _ _ => p_here h_optParamType; p_intro
  | |- PosBase.wpf _ _ (parameterName _ ) _ _ => (eapply h_paramName; [x_s|eassumption|..]); p_intro
  | |- PosBase.wpf _ _ (parameter _ ) _ _ => p_here h_parameter; p_intro
  | |- PosBase.wpf _ _ (attributeAlias _ ) _ _ => (eapply h_attrAlias; [x_s|eassumption|..]); p_intro
  | |- PosBase.wpf _ _ (returnParameter _ ) _ _ => p_here h_returnParam; p_intro
  | |- PosBase.wpf _ _ (parameterList _) _ _ => unfold parameterList
  | |- PosBase.wpf _ _ (returnParameters _) _ _ => unfold returnParameters
  | |- PosBase.wpf _ _ (lambdaParameterList _) _ _ => unfold lambdaParameterList
  | |- PosBase.wpf _ _ (stepProperty _ ) _ _ => (eapply h_stepProperty; [x_s|eassumption|..]); p_intro
  | |- PosBase.wpf _ _ (stateAttribute _ ) _ _ => (eapply h_stateAttr; [x_s|eassumption|..]); p_intro
  end.
Lemma h_produce p b q c (Q : expr -> ctx -> Prop) : Sq T q c -> rel b q -> (b = false -> 34 < r0) -> 
  (forall a q' c', good T a -> rel true q' -> Sq T q' c' -> Q a c') -> wpf (produce rec  p) c Q.
Proof.
  intros Hs HR HB HQ. p_conj. p_rng. unfold produce. yy.
Qed.
Ltac p_sub ::= match goal with
  | |- PosBase.wpf _ _ (handleKeyword _ ) _ _ => p_here h_keyword; p_intro
  | |- PosBase.wpf _ _ (argument _ ) _ _ => p_here h_argument; p_intro
  | |- PosBase.wpf _ _ (keyedEntry _ ) _ _ => p_here h_keyed; p_intro
  | |- PosBase.wpf _ _ (selectorEntry _ ) _ _ => p_here h_selEntry; p_intro
  | |- PosBase.wpf _ _ (typeName _ ) _ _ => (eapply h_typeName; [x_s|eassumption|..]); p_intro
  | |- PosBase.wpf _ _ (arrayExpression _ ) _ _ => p_here h_array; p_intro
  | |- PosBase.wpf _ _ (identifier _) _ _ => eapply h_identifier; [x_s|eassumption|p_intro|p_intro; cbn [nope qp qv qt qs] in *]
  | |- PosBase.wpf _ _ (identifierExpr _) _ _ => eapply h_identifierExpr; [x_s|eassumption|p_intro|p_intro; cbn [nope qp qv qt qs] in *]
  | |- PosBase.wpf _ _ (parameterType_body _ ) _ _ => (eapply h_paramTypeBody; [x_s|eassumption|..]); p_intro
  | |- PosBase.wpf _ _ (parameterListOf _ _) _ _ => (eapply h_paramList; [x_s|eassumption|..]); p_intro
  | |- PosBase.wpf _ _ (optParameterType _ ) _ _ => p_here h_optParamType; p_intro
  | |- PosBase.wpf _ _ (parameterName _ ) _ _ => (eapply h_paramName; [x_s|eassumption|..]); p_intro
  | |- PosBase.wpf _ _ (parameter _ ) _ _ => p_here h_parameter; p_intro
  | |- PosBase.wpf _ _ (attributeAlias _ ) _ _ => (eapply h_attrAlias; [x_s|eassumption|..]); p_intro
  | |- PosBase.wpf _ _ (returnParameter _ ) _ _ => p_here h_returnParam; p_intro
  | |- PosBase.wpf _ _ (parameterList _) _ _ => unfold parameterList
  | |- PosBase.wpf _ _ (returnParameters _) _ _ => unfold returnParameters
  | |- PosBase.wpf _ _ (lambdaParameterList _) _ _ => unfold lambdaParameterList
  | |- PosBase.wpf _ _ (stepProperty _ ) _ _ => (eapply h_stepProperty; [x_s|eassumption|..]); p_intro
  | |- PosBase.wpf _ _ (stateAttribute _ ) _ _ => (eapply h_stateAttr; [x_s|eassumption|..]); p_intro
  | |- PosBase.wpf _ _ (produce _ _) _ _ => p_here h_produce; p_intro
  end.
Lemma step_back q : rel true q -> aq T q0 < 3 * rq T q + 1 -> weight (qt q) <= 1 -> rel true (nope q).
Proof.
  intros (O & _ & M) A W. destruct (M eq_refl) as (M1 & M2 & M3). pose proof O as (O1 & O2 & O3).
  assert (K: kq T (nope q) = rq T q) by reflexivity. assert (K': rq T (nope q) = rq T q) by reflexivity.
  assert (V: vq q0 (nope q)) by exact M2.
  assert (X: moreq T q0 (nope q)).
  { unfold moreq. split; [|split; [exact V|rewrite K'; exact M3]]. unfold aq at 2. rewrite K. cbn [nope qt]. lia. }
  split; [|split; [now apply moreq_geq|auto]]. unfold okq, rngs. cbn [nope qp qv qt qs]. auto.
Qed.
Lemma h_resource  b q c (Q : expr -> ctx -> Prop) : Sq T q c -> rel b q -> (b = false -> 30 < r0) -> 
  (forall a q' c', good T a -> (qname a = true -> aq T q0 < 3 * rq T q' + 1) -> rel true q' -> Sq T q' c' -> Q a c') -> wpf (resource rec ) c Q.
Proof.
  intros Hs HR HB HQ. p_conj. p_rng. unfold resource. yy.
Qed.
Ltac p_sub ::= match goal with
  | |- PosBase.wpf _ _ (handleKeyword _ ) _ _ => p_here h_keyword; p_intro
  | |- PosBase.wpf _ _ (argument _ ) _ _ => p_here h_argument; p_intro
  | |- PosBase.wpf _ _ (keyedEntry _ ) _ _ => p_here h_keyed; p_intro
  | |- PosBase.wpf _ _ (selectorEntry _ ) _ _ => p_here h_selEntry; p_intro
  | |- PosBase.wpf _ _ (typeName _ ) _ _ => (eapply h_typeName; [x_s|eassumption|..]); p_intro
  | |- PosBase.wpf _ _ (arrayExpression _ ) _ _ => p_here h_array; p_intro
  | |- PosBase.wpf _ _ (identifier _) _ _ => eapply h_identifier; [x_s|eassumption|p_intro|p_intro; cbn [nope qp qv qt qs] in *]
  | |- PosBase.wpf _ _ (identifierExpr _) _ _ => eapply h_identifierExpr; [x_s|eassumption|p_intro|p_intro; cbn [nope qp qv qt qs] in *]
  | |- PosBase.wpf _ _ (parameterType_body _ ) _ _ => (eapply h_paramTypeBody; [x_s|eassumption|..]); p_intro
  | |- PosBase.wpf _ _ (parameterListOf _ _) _ _ => (eapply h_paramList; [x_s|eassumption|..]); p_intro
  | |- PosBase.wpf _ _ (optParameterType _ ) _ _ => p_here h_optParamType; p_intro
  | |- PosBase.wpf _ _ (parameterName _ ) _ _ => (eapply h_paramName; [x_s|eassumption|..]); p_intro
  | |- PosBase.wpf _ _ (parameter _ ) _ _ => p_here h_parameter; p_intro
  | |- PosBase.wpf _ _ (attributeAlias _ ) _ _ => (eapply h_attrAlias; [x_s|eassumption|..]); p_intro
  | |- PosBase.wpf _ _ (returnParameter _ ) _ _ => p_here h_returnParam; p_intro
  | |- PosBase.wpf _ _ (parameterList _) _ _ => unfold parameterList
  | |- PosBase.wpf _ _ (returnParameters _) _ _ => unfold returnParameters
  | |- PosBase.wpf _ _ (lambdaParameterList _) _ _ => unfold lambdaParameterList
  | |- PosBase.wpf _ _ (stepProperty _ ) _ _ => (eapply h_stepProperty; [x_s|eassumption|..]); p_intro
  | |- PosBase.wpf _ _ (stateAttribute _ ) _ _ => (eapply h_stateAttr; [x_s|eassumption|..]); p_intro
  | |- PosBase.wpf _ _ (produce _ _) _ _ => p_here h_produce; p_intro
  | |- PosBase.wpf _ _ (resource _ ) _ _ => p_here h_resource; p_intro
  end.
Lemma h_step  b q c (Q : expr -> ctx -> Prop) : Sq T q c -> rel b q -> (b = false -> 30 < r0) -> 
  (forall a q' c', good T a -> rel true q' -> Sq T q' c' -> Q a c') -> wpf (step rec ) c Q.
Proof.
  intros Hs HR HB HQ. p_conj. p_rng. unfold step. yy. apply (HQ (EQName p name) (nope q') c'0); [assumption| |eassumption]. apply step_back; auto.
Qed.
Ltac p_sub ::= match goal with
  | |- PosBase.wpf _ _ (handleKeyword _ ) _ _ => p_here h_keyword; p_intro
  | |- PosBase.wpf _ _ (argument _ ) _ _ => p_here h_argument; p_intro
  | |- PosBase.wpf _ _ (keyedEntry _ ) _ _ => p_here h_keyed; p_intro
  | |- PosBase.wpf _ _ (selectorEntry _ ) _ _ => p_here h_selEntry; p_intro
  | |- PosBase.wpf _ _ (typeName _ ) _ _ => (eapply h_typeName; [x_s|eassumption|..]); p_intro
  | |- PosBase.wpf _ _ (arrayExpression _ ) _ _ => p_here h_array; p_intro
  | |- PosBase.wpf _ _ (identifier _) _ _ => eapply h_identifier; [x_s|eassumption|p_intro|p_intro; cbn [nope qp qv qt qs] in *]
  | |- PosBase.wpf _ _ (identifierExpr _) _ _ => eapply h_identifierExpr; [x_s|eassumption|p_intro|p_intro; cbn [nope qp qv qt qs] in *]
  | |- PosBase.wpf _ _ (parameterType_body _ ) _ _ => (eapply h_paramTypeBody; [x_s|eassumption|..]); p_intro
  | |- PosBase.wpf _ _ (parameterListOf _ _) _ _ => (eapply h_paramList; [x_s|eassumption|..]); p_intro
  | |- PosBase.wpf _ _ (optParameterType _ ) _ _ => p_here h_optParamType; p_intro
  | |- PosBase.wpf _ _ (parameterName _ ) _ _ => (eapply h_paramName; [x_s|eassumption|..]); p_intro
  | |- PosBase.wpf _ _ (parameter _ ) _ _ => p_here h_parameter; p_intro
  | |- PosBase.wpf _ _ (attributeAlias _ ) _ _ => (eapply h_attrAlias; [x_s|eassumption|..]); p_intro
  | |- PosBase.wpf _ _ (returnParameter _ ) _ _ => p_here h_returnParam; p_intro
  | |- PosBase.wpf _ _ (parameterList _) _ _ => unfold parameterList
  | |- PosBase.wpf _ _ (returnParameters _) _ _ => unfold returnParameters
  | |- PosBase.wpf _ _ (lambdaParameterList _) _ _ => unfold lambdaParameterList
  | |- PosBase.wpf _ _ (stepProperty _ ) _ _ => (eapply h_stepProperty; [x_s|eassumption|..]); p_intro
  | |- PosBase.wpf _ _ (stateAttribute _ ) _ _ => (eapply h_stateAttr; [x_s|eassumption|..]); p_intro
  | |- PosBase.wpf _ _ (produce _ _) _ _ => p_here h_produce; p_intro
  | |- PosBase.wpf _ _ (resource _ ) _ _ => p_here h_resource; p_intro
  | |- PosBase.wpf _ _ (step _ ) _ _ => p_here h_step; p_intro
  end.
Lemma h_className  b q c (Q : str -> ctx -> Prop) : Sq T q c -> rel b q -> 
  (forall a q' c', rel true q' -> Sq T q' c' -> Q a c') -> wpf (className rec ) c Q.
Proof.
  intros Hs HR HQ. p_conj. p_rng. unfold className. yy.
Qed.
Ltac p_sub ::= match goal with
  | |- PosBase.wpf _ _ (handleKeyword _ ) _ _ => p_here h_keyword; p_intro
  | |- PosBase.wpf _ _ (argument _ ) _ _ => p_here h_argument; p_intro
  | |- PosBase.wpf _ _ (keyedEntry _ ) _ _ => p_here h_keyed; p_intro
  | |- PosBase.wpf _ _ (selectorEntry _ ) _ _ => p_here h_selEntry; p_intro
  | |- PosBase.wpf _ _ (typeName _ ) _ _ => (eapply h_typeName; [x_s|eassumption|..]); p_intro
  | |- PosBase.wpf _ _ (arrayExpression _ ) _ _ => p_here h_array; p_intro
  | |- PosBase.wpf _ _ (identifier _) _ _ => eapply h_identifier; [x_s|eassumption|p_intro|p_intro; cbn [nope qp qv qt qs] in *]
  | |- PosBase.wpf _ _ (identifierExpr _) _ _ => eapply h_identifierExpr; [x_s|eassumption|p_intro|p_intro; cbn [nope qp qv qt qs] in *]
  | |- PosBase.wpf _ _ (parameterType_body _ ) _ _ => (eapply h_paramTypeBody; [x_s|eassumption|..]); p_intro
  | |- PosBase.wpf _ _ (parameterListOf _ _) _ _ => (eapply h_paramList; [x_s|eassumption|..]); p_intro
  | |- PosBase.wpf _ _ (optParameterType _ ) _ _ => p_here h_optParamType; p_intro
  | |- PosBase.wpf _ _ (parameterName _ ) _ _ => (eapply h_paramName; [x_s|eassumption|..]); p_intro
  | |- PosBase.wpf _ _ (parameter _ ) _ _ => p_here h_parameter; p_intro
  | |- PosBase.wpf _ _ (attributeAlias _ ) _ _ => (eapply h_attrAlias; [x_s|eassumption|..]); p_intro
  | |- PosBase.wpf _ _ (returnParameter _ ) _ _ => p_here h_returnParam; p_intro
  | |- PosBase.wpf _ _ (parameterList _) _ _ => unfold parameterList
  | |- PosBase.wpf _ _ (returnParameters _) _ _ => unfold returnParameters
  | |- PosBase.wpf _ _ (lambdaParameterList _) _ _ => unfold lambdaParameterList
  | |- PosBase.wpf _ _ (stepProperty _ ) _ _ => (eapply h_stepProperty; [x_s|eassumption|..]); p_intro
  | |- PosBase.wpf _ _ (stateAttribute _ ) _ _ => (eapply h_stateAttr; [x_s|eassumption|..]); p_intro
  | |- PosBase.wpf _ _ (produce _ _) _ _ => p_here h_produce; p_intro
  | |- PosBase.wpf _ _ (resource _ ) _ _ => p_here h_resource; p_intro
  | |- PosBase.wpf _ _ (step _ ) _ _ => p_here h_step; p_intro
  | |- PosBase.wpf _ _ (className _ ) _ _ => (eapply h_className; [x_s|eassumption|..]); p_intro
  end.
Lemma h_braces  b q c (Q : expr -> ctx -> Prop) : Sq T q c -> rel b q -> 
  (forall a q' c', good T a -> rel true q' -> Sq T q' c' -> Q a c') -> wpf (braces rec ) c Q.
Proof.
  intros Hs HR HQ. p_conj. p_rng. unfold braces. yy.
Qed.
Ltac p_sub ::= match goal with
  | |- PosBase.wpf _ _ (handleKeyword _ ) _ _ => p_here h_keyword; p_intro
  | |- PosBase.wpf _ _ (argument _ ) _ _ => p_here h_argument; p_intro
  | |- PosBase.wpf _ _ (keyedEntry _ ) _ _ => p_here h_keyed; p_intro
  | |- PosBase.wpf _ _ (selectorEntry _ ) _ _ => p_here h_selEntry; p_intro
  | |- PosBase.wpf _ _ (typeName _ ) _ _ => (eapply h_typeName; [x_s|eassumption|..]); p_intro
  | |- PosBase.wpf _ _ (arrayExpression _ ) _ _ => p_here h_array; p_intro
  | |- PosBase.wpf _ _ (identifier _) _ _ => eapply h_identifier; [x_s|eassumption|p_intro|p_intro; cbn [nope qp qv qt qs] in *]
  | |- PosBase.wpf _ _ (identifierExpr _) _ _ => eapply h_identifierExpr; [x_s|eassumption|p_intro|p_intro; cbn [nope qp qv qt qs] in *]
  | |- PosBase.wpf _ _ (parameterType_body _ ) _ _ => (eapply h_paramTypeBody; [x_s|eassumption|..]); p_intro
  | |- PosBase.wpf _ _ (parameterListOf _ _) _ _ => (eapply h_paramList; [x_s|eassumption|..]); p_intro
  | |- PosBase.wpf _ _ (optParameterType _ ) _ _ => p_here h_optParamType; p_intro
  | |- PosBase.wpf _ _ (parameterName _ ) _ _ => (eapply h_paramName; [x_s|eassumption|..]); p_intro
  | |- PosBase.wpf _ _ (parameter _ ) _ _ => p_here h_parameter; p_intro
  | |- PosBase.wpf _ _ (attributeAlias _ ) _ _ => (eapply h_attrAlias; [x_s|eassumption|..]); p_intro
  | |- PosBase.wpf _ _ (returnParameter _ ) _ _ => p_here h_returnParam; p_intro
  | |- PosBase.wpf _ _ (parameterList _) _ _ => unfold parameterList
  | |- PosBase.wpf _ _ (returnParameters _) _ _ => unfold returnParameters
  | |- PosBase.wpf _ _ (lambdaParameterList _) _ _ => unfold lambdaParameterList
  | |- PosBase.wpf _ _ (stepProperty _ ) _ _ => (eapply h_stepProperty; [x_s|eassumption|..]); p_intro
  | |- PosBase.wpf _ _ (stateAttribute _ ) _ _ => (eapply h_stateAttr; [x_s|eassumption|..]); p_intro
  | |- PosBase.wpf _ _ (produce _ _) _ _ => p_here h_produce; p_intro
  | |- PosBase.wpf _ _ (resource _ ) _ _ => p_here h_resource; p_intro
  | |- PosBase.wpf _ _ (step _ ) _ _ => p_here h_step; p_intro
  | |- PosBase.wpf _ _ (className _ ) _ _ => (eapply h_className; [x_s|eassumption|..]); p_intro
  | |- PosBase.wpf _ _ (braces _ ) _ _ => (eapply h_braces; [x_s|eassumption|..]); p_intro
  end.
Lemma h_capMap component kind b q c (Q : expr -> ctx -> Prop) : Sq T q c -> rel b q -> qt q <> TEnd -> 
  (forall a q' c', good T a -> qname a = false -> rel true q' -> Sq T q' c' -> Q a c') -> wpf (capabilityMapping rec  component kind) c Q.
Proof.
  intros Hs HR HP HQ. p_conj. p_rng. unfold capabilityMapping. yy.
Qed.
Ltac p_sub ::= match goal with
  | |- PosBase.wpf _ _ (handleKeyword _ ) _ _ => p_here h_keyword; p_intro
  | |- PosBase.wpf _ _ (argument _ ) _ _ => p_here h_argument; p_intro
  | |- PosBase.wpf _ _ (keyedEntry _ ) _ _ => p_here h_keyed; p_intro
  | |- PosBase.wpf _ _ (selectorEntry _ ) _ _ => p_here h_selEntry; p_intro
  | |- PosBase.wpf _ _ (typeName _ ) _ _ => (eapply h_typeName; [x_s|eassumption|..]); p_intro
  | |- PosBase.wpf _ _ (arrayExpression _ ) _ _ => p_here h_array; p_intro
  | |- PosBase.wpf _ _ (identifier _) _ _ => eapply h_identifier; [x_s|eassumption|p_intro|p_intro; cbn [nope qp qv qt qs] in *]
  | |- PosBase.wpf _ _ (identifierExpr _) _ _ => eapply h_identifierExpr; [x_s|eassumption|p_intro|p_intro; cbn [nope qp qv qt qs] in *]
  | |- PosBase.wpf _ _ (parameterType_body _ ) _ _ => (eapply h_paramTypeBody; [x_s|eassumption|..]); p_intro
  | |- PosBase.wpf _ _ (parameterListOf _ _) _ _ => (eapply h_paramList; [x_s|eassumption|..]); p_intro
  | |- PosBase.wpf _ _ (optParameterType _ ) _ _ => p_here h_optParamType; p_intro
  | |- PosBase.wpf _ _ (parameterName _ ) _ _ => (eapply h_paramName; [x_s|eassumption|..]); p_intro
  | |- PosBase.wpf _ _ (parameter _ ) _ _ => p_here h_parameter; p_intro
  | |- PosBase.wpf _ _ (attributeAlias _ ) _ _ => (eapply h_attrAlias; [x_s|eassumption|..]); p_intro
  | |- PosBase.wpf _ _ (returnParameter _ ) _ _ => p_here h_returnParam; p_intro
  | |- PosBase.wpf _ _ (parameterList _) _ _ => unfold parameterList
  | |- PosBase.wpf _ _ (returnParameters _) _ _ => unfold returnParameters
  | |- PosBase.wpf _ _ (lambdaParameterList _) _ _ => unfold lambdaParameterList
  | |- PosBase.wpf _ _ (stepProperty _ ) _ _ => (eapply h_stepProperty; [x_s|eassumption|..]); p_intro
  | |- PosBase.wpf _ _ (stateAttribute _ ) _ _ => (eapply h_stateAttr; [x_s|eassumption|..]); p_intro
  | |- PosBase.wpf _ _ (produce _ _) _ _ => p_here h_produce; p_intro
  | |- PosBase.wpf _ _ (resource _ ) _ _ => p_here h_resource; p_intro
  | |- PosBase.wpf _ _ (step _ ) _ _ => p_here h_step; p_intro
  | |- PosBase.wpf _ _ (className _ ) _ _ => (eapply h_className; [x_s|eassumption|..]); p_intro
  | |- PosBase.wpf _ _ (braces _ ) _ _ => (eapply h_braces; [x_s|eassumption|..]); p_intro
  | |- PosBase.wpf _ _ (capabilityMapping _ _ _) _ _ => (eapply h_capMap; [x_s|eassumption|..]); [p_zz|p_intro]
  end.
Lemma h_selectors test b q c (Q : expr -> ctx -> Prop) : Sq T q c -> rel b q -> qt q <> TEnd -> 
  (forall a q' c', (good T test -> good T a) -> qname a = false -> rel true q' -> Sq T q' c' -> Q a c') -> wpf (selectorsExpression rec  test) c Q.
Proof.
  intros Hs HR HP HQ. p_conj. p_rng. unfold selectorsExpression. yy.
Qed.
Ltac p_sub ::= match goal with
  | |- PosBase.wpf _ _ (handleKeyword _ ) _ _ => p_here h_keyword; p_intro
  | |- PosBase.wpf _ _ (argument _ ) _ _ => p_here h_argument; p_intro
  | |- PosBase.wpf _ _ (keyedEntry _ ) _ _ => p_here h_keyed; p_intro
  | |- PosBase.wpf _ _ (selectorEntry _ ) _ _ => p_here h_selEntry; p_intro
  | |- PosBase.wpf _ _ (typeName _ ) _ _ => (eapply h_typeName; [x_s|eassumption|..]); p_intro
  | |- PosBase.wpf _ _ (arrayExpression _ ) _ _ => p_here h_array; p_intro
  | |- PosBase.wpf _ _ (identifier _) _ _ => eapply h_identifier; [x_s|eassumption|p_intro|p_intro; cbn [nope qp qv qt qs] in *]
  | |- PosBase.wpf _ _ (identifierExpr _) _ _ => eapply h_identifierExpr; [x_s|eassumption|p_intro|p_intro; cbn [nope qp qv qt qs] in *]
  | |- PosBase.wpf _ _ (parameterType_body _ ) _ _ => (eapply h_paramTypeBody; [x_s|eassumption|..]); p_intro
  | |- PosBase.wpf _ _ (parameterListOf _ _) _ _ => (eapply h_paramList; [x_s|eassumption|..]); p_intro
  | |- PosBase.wpf _ _ (optParameterType _ ) _ _ => p_here h_optParamType; p_intro
  | |- PosBase.wpf _ _ (parameterName _ ) _ _ => (eapply h_paramName; [x_s|eassumption|..]); p_intro
  | |- PosBase.wpf _ _ (parameter _ ) _ _ => p_here h_parameter; p_intro
  | |- PosBase.wpf _ _ (attributeAlias _ ) _ _ => (eapply h_attrAlias; [x_s|eassumption|..]); p_intro
  | |- PosBase.wpf _ _ (returnParameter _ ) _ _ => p_here h_returnParam; p_intro
  | |- PosBase.wpf _ _ (parameterList _) _ _ => unfold parameterList
  | |- PosBase.wpf _ _ (returnParameters _) _ _ => unfold returnParameters
  | |- PosBase.wpf _ _ (lambdaParameterList _) _ _ => unfold lambdaParameterList
  | |- PosBase.wpf _ _ (stepProperty _ ) _ _ => (eapply h_stepProperty; [x_s|eassumption|..]); p_intro
  | |- PosBase.wpf _ _ (stateAttribute _ ) _ _ => (eapply h_stateAttr; [x_s|eassumption|..]); p_intro
  | |- PosBase.wpf _ _ (produce _ _) _ _ => p_here h_produce; p_intro
  | |- PosBase.wpf _ _ (resource _ ) _ _ => p_here h_resource; p_intro
  | |- PosBase.wpf _ _ (step _ ) _ _ => p_here h_step; p_intro
  | |- PosBase.wpf _ _ (className _ ) _ _ => (eapply h_className; [x_s|eassumption|..]); p_intro
  | |- PosBase.wpf _ _ (braces _ ) _ _ => (eapply h_braces; [x_s|eassumption|..]); p_intro
  | |- PosBase.wpf _ _ (capabilityMapping _ _ _) _ _ => (eapply h_capMap; [x_s|eassumption|..]); [p_zz|p_intro]
  | |- PosBase.wpf _ _ (selectorsExpression _ _) _ _ => (eapply h_selectors; [x_s|eassumption|..]); [p_zz|p_intro]
  end.
Lemma h_collectQ  b q c (Q : expr -> ctx -> Prop) : Sq T q c -> rel b q -> qt q <> TEnd -> 
  (forall a q' c', rel true q' -> Sq T q' c' -> Q a c') -> wpf (collectQuery rec ) c Q.
Proof.
  intros Hs HR HP HQ. p_conj. p_rng. unfold collectQuery. yy.
Qed.
Ltac p_sub ::= match goal with
  | |- PosBase.wpf _ _ (handleKeyword _ ) _ _ => p_here h_keyword; p_intro
  | |- PosBase.wpf _ _ (argument _ ) _ _ => p_here h_argument; p_intro
  | |- PosBase.wpf _ _ (keyedEntry _ ) _ _ => p_here h_keyed; p_intro
  | |- PosBase.wpf _ _ (selectorEntry _ ) _ _ => p_here h_selEntry; p_intro
  | |- PosBase.wpf _ _ (typeName _ ) _ _ => (eapply h_typeName; [x_s|eassumption|..]); p_intro
  | |- PosBase.wpf _ _ (arrayExpression _ ) _ _ => p_here h_array; p_intro
  | |- PosBase.wpf _ _ (identifier _) _ _ => eapply h_identifier; [x_s|eassumption|p_intro|p_intro; cbn [nope qp qv qt qs] in *]
  | |- PosBase.wpf _ _ (identifierExpr _) _ _ => eapply h_identifierExpr; [x_s|eassumption|p_intro|p_intro; cbn [nope qp qv qt qs] in *]
  | |- PosBase.wpf _ _ (parameterType_body _ ) _ _ => (eapply h_paramTypeBody; [x_s|eassumption|..]); p_intro
  | |- PosBase.wpf _ _ (parameterListOf _ _) _ _ => (eapply h_paramList; [x_s|eassumption|..]); p_intro
  | |- PosBase.wpf _ _ (optParameterType _ ) _ _ => p_here h_optParamType; p_intro
  | |- PosBase.wpf _ _ (parameterName _ ) _ _ => (eapply h_paramName; [x_s|eassumption|..]); p_intro
  | |- PosBase.wpf _ _ (parameter _ ) _ _ => p_here h_parameter; p_intro
  | |- PosBase.wpf _ _ (attributeAlias _ ) _ _ => (eapply h_attrAlias; [x_s|eassumption|..]); p_intro
  | |- PosBase.wpf _ _ (returnParameter _ ) _ _ => p_here h_returnParam; p_intro
  | |- PosBase.wpf _ _ (parameterList _) _ _ => unfold parameterList
  | |- PosBase.wpf _ _ (returnParameters _) _ _ => unfold returnParameters
  | |- PosBase.wpf _ _ (lambdaParameterList _) _ _ => unfold lambdaParameterList
  | |- PosBase.wpf _ _ (stepProperty _ ) _ _ => (eapply h_stepProperty; [x_s|eassumption|..]); p_intro
  | |- PosBase.wpf _ _ (stateAttribute _ ) _ _ => (eapply h_stateAttr; [x_s|eassumption|..]); p_intro
  | |- PosBase.wpf _ _ (produce _ _) _ _ => p_here h_produce; p_intro
  | |- PosBase.wpf _ _ (resource _ ) _ _ => p_here h_resource; p_intro
  | |- PosBase.wpf _ _ (step _ ) _ _ => p_here h_step; p_intro
  | |- PosBase.wpf _ _ (className _ ) _ _ => (eapply h_className; [x_s|eassumption|..]); p_intro
  | |- PosBase.wpf _ _ (braces _ ) _ _ => (eapply h_braces; [x_s|eassumption|..]); p_intro
  | |- PosBase.wpf _ _ (capabilityMapping _ _ _) _ _ => (eapply h_capMap; [x_s|eassumption|..]); [p_zz|p_intro]
  | |- PosBase.wpf _ _ (selectorsExpression _ _) _ _ => (eapply h_selectors; [x_s|eassumption|..]); [p_zz|p_intro]
  | |- PosBase.wpf _ _ (collectQuery _ ) _ _ => (eapply h_collectQ; [x_s|eassumption|..]); [p_zz|p_intro]
  end.
Lemma h_collect lhs b q c (Q : expr -> ctx -> Prop) : Sq T q c -> rel b q -> qt q <> TEnd -> 
  (forall a q' c', (good T lhs -> good T a) -> qname a = false -> rel true q' -> Sq T q' c' -> Q a c') -> wpf (collectExpression rec  lhs) c Q.
Proof.
  intros Hs HR HP HQ. p_conj. p_rng. unfold collectExpression. yy.
Qed.
Ltac p_sub ::= match goal with
  | |- PosBase.wpf _ _ (handleKeyword _ ) _ _ => p_here h_keyword; p_intro
  | |- PosBase.wpf _ _ (argument _ ) _ _ => p_here h_argument; p_intro
  | |- PosBase.wpf _ _ (keyedEntry _ ) _ _ => p_here h_keyed; p_intro
  | |- PosBase.wpf _ _ (selectorEntry _ ) _ _ => p_here h_selEntry; p_intro
  | |- PosBase.wpf _ _ (typeName _ ) _ _ => (eapply h_typeName; [x_s|eassumption|..]); p_intro
  | |- PosBase.wpf _ _ (arrayExpression _ ) _ _ => p_here h_array; p_intro
  | |- PosBase.wpf _ _ (identifier _) _ _ => eapply h_identifier; [x_s|eassumption|p_intro|p_intro; cbn [nope qp qv qt qs] in *]
  | |- PosBase.wpf _ _ (identifierExpr _) _ _ => eapply h_identifierExpr; [x_s|eassumption|p_intro|p_intro; cbn [nope qp qv qt qs] in *]
  | |- PosBase.wpf _ _ (parameterType_body _ ) _ _ => (eapply h_paramTypeBody; [x_s|eassumption|..]); p_intro
  | |- PosBase.wpf _ _ (parameterListOf _ _) _ _ => (eapply h_paramList; [x_s|eassumption|..]); p_intro
  | |- PosBase.wpf _ _ (optParameterType _ ) _ _ => p_here h_optParamType; p_intro
  | |- PosBase.wpf _ _ (parameterName _ ) _ _ => (eapply h_paramName; [x_s|eassumption|..]); p_intro
  | |- PosBase.wpf _ _ (parameter _ ) _ _ => p_here h_parameter; p_intro
  | |- PosBase.wpf _ _ (attributeAlias _ ) _ _ => (eapply h_attrAlias; [x_s|eassumption|..]); p_intro
  | |- PosBase.wpf _ _ (returnParameter _ ) _ _ => p_here h_returnParam; p_intro
  | |- PosBase.wpf _ _ (parameterList _) _ _ => unfold parameterList
  | |- PosBase.wpf _ _ (returnParameters _) _ _ => unfold returnParameters
  | |- PosBase.wpf _ _ (lambdaParameterList _) _ _ => unfold lambdaParameterList
  | |- PosBase.wpf _ _ (stepProperty _ ) _ _ => (eapply h_stepProperty; [x_s|eassumption|..]); p_intro
  | |- PosBase.wpf _ _ (stateAttribute _ ) _ _ => (eapply h_stateAttr; [x_s|eassumption|..]); p_intro
  | |- PosBase.wpf _ _ (produce _ _) _ _ => p_here h_produce; p_intro
  | |- PosBase.wpf _ _ (resource _ ) _ _ => p_here h_resource; p_intro
  | |- PosBase.wpf _ _ (step _ ) _ _ => p_here h_step; p_intro
  | |- PosBase.wpf _ _ (className _ ) _ _ => (eapply h_className; [x_s|eassumption|..]); p_intro
  | |- PosBase.wpf _ _ (braces _ ) _ _ => (eapply h_braces; [x_s|eassumption|..]); p_intro
  | |- PosBase.wpf _ _ (capabilityMapping _ _ _) _ _ => (eapply h_capMap; [x_s|eassumption|..]); [p_zz|p_intro]
  | |- PosBase.wpf _ _ (selectorsExpression _ _) _ _ => (eapply h_selectors; [x_s|eassumption|..]); [p_zz|p_intro]
  | |- PosBase.wpf _ _ (collectQuery _ ) _ _ => (eapply h_collectQ; [x_s|eassumption|..]); [p_zz|p_intro]
  | |- PosBase.wpf _ _ (collectExpression _ _) _ _ => (eapply h_collect; [x_s|eassumption|..]); [p_zz|p_intro]
  end.
Lemma h_optRet  b q c (Q : option expr -> ctx -> Prop) : Sq T q c -> rel b q -> 
  (forall a q' c', rel b q' -> Sq T q' c' -> Q a c') -> wpf (optReturnType rec ) c Q.
Proof.
  intros Hs HR HQ. p_conj. p_rng. unfold optReturnType. yy.
Qed.
Ltac p_sub ::= match goal with
  | |- PosBase.wpf _ _ (handleKeyword _ ) _ _ => p_here h_keyword; p_intro
  | |- PosBase.wpf _ _ (argument _ ) _ _ => p_here h_argument; p_intro
  | |- PosBase.wpf _ _ (keyedEntry _ ) _ _ => p_here h_keyed; p_intro
  | |- PosBase.wpf _ _ (selectorEntry _ ) _ _ => p_here h_selEntry; p_intro
  | |- PosBase.wpf _ _ (typeName _ ) _ _ => (eapply h_typeName; [x_s|eassumption|..]); p_intro
  | |- PosBase.wpf _ _ (arrayExpression _ ) _ _ => p_here h_array; p_intro
  | |- PosBase.wpf _ _ (identifier _) _ _ => eapply h_identifier; [x_s|eassumption|p_intro|p_intro; cbn [nope qp qv qt qs] in *]
  | |- PosBase.wpf _ _ (identifierExpr _) _ _ => eapply h_identifierExpr; [x_s|eassumption|p_intro|p_intro; cbn [nope qp qv qt qs] in *]
  | |- PosBase.wpf _ _ (parameterType_body _ ) _ _ => (eapply h_paramTypeBody; [x_s|eassumption|..]); p_intro
  | |- PosBase.wpf _ _ (parameterListOf _ _) _ _ => (eapply h_paramList; [x_s|eassumption|..]); p_intro
  | |- PosBase.wpf _ _ (optParameterType _ ) _ _ => p_here h_optParamType; p_intro
  | |- PosBase.wpf _ _ (parameterName _ ) _ _ => (eapply h_paramName; [x_s|eassumption|..]); p_intro
  | |- PosBase.wpf _ _ (parameter _ ) _ _ => p_here h_parameter; p_intro
  | |- PosBase.wpf _ _ (attributeAlias _ ) _ _ => (eapply h_attrAlias; [x_s|eassumption|..]); p_intro
  | |- PosBase.wpf _ _ (returnParameter _ ) _ _ => p_here h_returnParam; p_intro
  | |- PosBase.wpf _ _ (parameterList _) _ _ => unfold parameterList
  | |- PosBase.wpf _ _ (returnParameters _) _ _ => unfold returnParameters
  | |- PosBase.wpf _ _ (lambdaParameterList _) _ _ => unfold lambdaParameterList
  | |- PosBase.wpf _ _ (stepProperty _ ) _ _ => (eapply h_stepProperty; [x_s|eassumption|..]); p_intro
  | |- PosBase.wpf _ _ (stateAttribute _ ) _ _ => (eapply h_stateAttr; [x_s|eassumption|..]); p_intro
  | |- PosBase.wpf _ _ (produce _ _) _ _ => p_here h_produce; p_intro
  | |- PosBase.wpf _ _ (resource _ ) _ _ => p_here h_resource; p_intro
  | |- PosBase.wpf _ _ (step _ ) _ _ => p_here h_step; p_intro
  | |- PosBase.wpf _ _ (className _ ) _ _ => (eapply h_className; [x_s|eassumption|..]); p_intro
  | |- PosBase.wpf _ _ (braces _ ) _ _ => (eapply h_braces; [x_s|eassumption|..]); p_intro
  | |- PosBase.wpf _ _ (capabilityMapping _ _ _) _ _ => (eapply h_capMap; [x_s|eassumption|..]); [p_zz|p_intro]
  | |- PosBase.wpf _ _ (selectorsExpression _ _) _ _ => (eapply h_selectors; [x_s|eassumption|..]); [p_zz|p_intro]
  | |- PosBase.wpf _ _ (collectQuery _ ) _ _ => (eapply h_collectQ; [x_s|eassumption|..]); [p_zz|p_intro]
  | |- PosBase.wpf _ _ (collectExpression _ _) _ _ => (eapply h_collect; [x_s|eassumption|..]); [p_zz|p_intro]
  | |- PosBase.wpf _ _ (optReturnType _ ) _ _ => (eapply h_optRet; [x_s|eassumption|..]); p_intro
  end.
Lemma h_lambda  b q c (Q : expr -> ctx -> Prop) : Sq T q c -> rel b q -> qt q <> TEnd -> 
  (forall a q' c', good T a -> qname a = false -> rel true q' -> Sq T q' c' -> Q a c') -> wpf (lambda rec ) c Q.
Proof.
  intros Hs HR HP HQ. p_conj. p_rng. unfold lambda. yy.
Qed.
Ltac p_sub ::= match goal with
  | |- PosBase.wpf _ _ (handleKeyword _ ) _ _ => p_here h_keyword; p_intro
  | |- PosBase.wpf _ _ (argument _ ) _ _ => p_here h_argument; p_intro
  | |- PosBase.wpf _ _ (keyedEntry _ ) _ _ => p_here h_keyed; p_intro
  | |- PosBase.wpf _ _ (selectorEntry _ ) _ _ => p_here h_selEntry; p_intro
  | |- PosBase.wpf _ _ (typeName _ ) _ _ => (eapply h_typeName; [x_s|eassumption|..]); p_intro
  | |- PosBase.wpf _ _ (arrayExpression _ ) _ _ => p_here h_array; p_intro
  | |- PosBase.wpf _ _ (identifier _) _ _ => eapply h_identifier; [x_s|eassumption|p_intro|p_intro; cbn [nope qp qv qt qs] in *]
  | |- PosBase.wpf _ _ (identifierExpr _) _ _ => eapply h_identifierExpr; [x_s|eassumption|p_intro|p_intro; cbn [nope qp qv qt qs] in *]
  | |- PosBase.wpf _ _ (parameterType_body _ ) _ _ => (eapply h_paramTypeBody; [x_s|eassumption|..]); p_intro
  | |- PosBase.wpf _ _ (parameterListOf _ _) _ _ => (eapply h_paramList; [x_s|eassumption|..]); p_intro
  | |- PosBase.wpf _ _ (optParameterType _ ) _ _ => p_here h_optParamType; p_intro
  | |- PosBase.wpf _ _ (parameterName _ ) _ _ => (eapply h_paramName; [x_s|eassumption|..]); p_intro
  | |- PosBase.wpf _ _ (parameter _ ) _ _ => p_here h_parameter; p_intro
  | |- PosBase.wpf _ _ (attributeAlias _ ) _ _ => (eapply h_attrAlias; [x_s|eassumption|..]); p_intro
  | |- PosBase.wpf _ _ (returnParameter _ ) _ _ => p_here h_returnParam; p_intro
  | |- PosBase.wpf _ _ (parameterList _) _ _ => unfold parameterList
  | |- PosBase.wpf _ _ (returnParameters _) _ _ => unfold returnParameters
  | |- PosBase.wpf _ _ (lambdaParameterList _) _ _ => unfold lambdaParameterList
  | |- PosBase.wpf _ _ (stepProperty _ ) _ _ => (eapply h_stepProperty; [x_s|eassumption|..]); p_intro
  | |- PosBase.wpf _ _ (stateAttribute _ ) _ _ => (eapply h_stateAttr; [x_s|eassumption|..]); p_intro
  | |- PosBase.wpf _ _ (produce _ _) _ _ => p_here h_produce; p_intro
  | |- PosBase.wpf _ _ (resource _ ) _ _ => p_here h_resource; p_intro
  | |- PosBase.wpf _ _ (step _ ) _ _ => p_here h_step; p_intro
  | |- PosBase.wpf _ _ (className _ ) _ _ => (eapply h_className; [x_s|eassumption|..]); p_intro
  | |- PosBase.wpf _ _ (braces _ ) _ _ => (eapply h_braces; [x_s|eassumption|..]); p_intro
  | |- PosBase.wpf _ _ (capabilityMapping _ _ _) _ _ => (eapply h_capMap; [x_s|eassumption|..]); [p_zz|p_intro]
  | |- PosBase.wpf _ _ (selectorsExpression _ _) _ _ => (eapply h_selectors; [x_s|eassumption|..]); [p_zz|p_intro]
  | |- PosBase.wpf _ _ (collectQuery _ ) _ _ => (eapply h_collectQ; [x_s|eassumption|..]); [p_zz|p_intro]
  | |- PosBase.wpf _ _ (collectExpression _ _) _ _ => (eapply h_collect; [x_s|eassumption|..]); [p_zz|p_intro]
  | |- PosBase.wpf _ _ (optReturnType _ ) _ _ => (eapply h_optRet; [x_s|eassumption|..]); p_intro
  | |- PosBase.wpf _ _ (lambda _ ) _ _ => (eapply h_lambda; [x_s|eassumption|..]); [p_zz|p_intro]
  end.
Lemma h_caseOption  b q c (Q : expr -> ctx -> Prop) : Sq T q c -> rel b q -> (b = false -> 36 < r0) -> 
  (forall a q' c', rel true q' -> Sq T q' c' -> Q a c') -> wpf (caseOption rec ) c Q.
Proof.
  intros Hs HR HB HQ. p_conj. p_rng. unfold caseOption. yy.
Qed.
Ltac p_sub ::= match goal with
  | |- PosBase.wpf _ _ (handleKeyword _ ) _ _ => p_here h_keyword; p_intro
  | |- PosBase.wpf _ _ (argument _ ) _ _ => p_here h_argument; p_intro
  | |- PosBase.wpf _ _ (keyedEntry _ ) _ _ => p_here h_keyed; p_intro
  | |- PosBase.wpf _ _ (selectorEntry _ ) _ _ => p_here h_selEntry; p_intro
  | |- PosBase.wpf _ _ (typeName _ ) _ _ => (eapply h_typeName; [x_s|eassumption|..]); p_intro
  | |- PosBase.wpf _ _ (arrayExpression _ ) _ _ => p_here h_array; p_intro
  | |- PosBase.wpf _ _ (identifier _) _ _ => eapply h_identifier; [x_s|eassumption|p_intro|p_intro; cbn [nope qp qv qt qs] in *]
  | |- PosBase.wpf _ _ (identifierExpr _) _ _ => eapply h_identifierExpr; [x_s|eassumption|p_intro|p_intro; cbn [nope qp qv qt qs] in *]
  | |- PosBase.wpf _ _ (parameterType_body _ ) _ _ => (eapply h_paramTypeBody; [x_s|eassumption|..]); p_intro
  | |- PosBase.wpf _ _ (parameterListOf _ _) _ _ => (eapply h_paramList; [x_s|eassumption|..]); p_intro
  | |- PosBase.wpf _ _ (optParameterType _ ) _ _ => p_here h_optParamType; p_intro
  | |- PosBase.wpf _ _ (parameterName _ ) _ _ => (eapply h_paramName; [x_s|eassumption|..]); p_intro
  | |- PosBase.wpf _ _ (parameter _ ) _ _ => p_here h_parameter; p_intro
  | |- PosBase.wpf _ _ (attributeAlias _ ) _ _ => (eapply h_attrAlias; [x_s|eassumption|..]); p_intro
  | |- PosBase.wpf _ _ (returnParameter _ ) _ _ => p_here h_returnParam; p_intro
  | |- PosBase.wpf _ _ (parameterList _) _ _ => unfold parameterList
  | |- PosBase.wpf _ _ (returnParameters _) _ _ => unfold returnParameters
  | |- PosBase.wpf _ _ (lambdaParameterList _) _ _ => unfold lambdaParameterList
  | |- PosBase.wpf _ _ (stepProperty _ ) _ _ => (eapply h_stepProperty; [x_s|eassumption|..]); p_intro
  | |- PosBase.wpf _ _ (stateAttribute _ ) _ _ => (eapply h_stateAttr; [x_s|eassumption|..]); p_intro
  | |- PosBase.wpf _ _ (produce _ _) _ _ => p_here h_produce; p_intro
  | |- PosBase.wpf _ _ (resource _ ) _ _ => p_here h_resource; p_intro
  | |- PosBase.wpf _ _ (step _ ) _ _ => p_here h_step; p_intro
  | |- PosBase.wpf _ _ (className _ ) _ _ => (eapply h_className; [x_s|eassumption|..]); p_intro
  | |- PosBase.wpf _ _ (braces _ ) _ _ => (eapply h_braces; [x_s|eassumption|..]); p_intro
  | |- PosBase.wpf _ _ (capabilityMapping _ _ _) _ _ => (eapply h_capMap; [x_s|eassumption|..]); [p_zz|p_intro]
  | |- PosBase.wpf _ _ (selectorsExpression _ _) _ _ => (eapply h_selectors; [x_s|eassumption|..]); [p_zz|p_intro]
  | |- PosBase.wpf _ _ (collectQuery _ ) _ _ => (eapply h_collectQ; [x_s|eassumption|..]); [p_zz|p_intro]
  | |- PosBase.wpf _ _ (collectExpression _ _) _ _ => (eapply h_collect; [x_s|eassumption|..]); [p_zz|p_intro]
  | |- PosBase.wpf _ _ (optReturnType _ ) _ _ => (eapply h_optRet; [x_s|eassumption|..]); p_intro
  | |- PosBase.wpf _ _ (lambda _ ) _ _ => (eapply h_lambda; [x_s|eassumption|..]); [p_zz|p_intro]
  | |- PosBase.wpf _ _ (caseOption _ ) _ _ => p_here h_caseOption; p_intro
  end.
Lemma h_case  b q c (Q : expr -> ctx -> Prop) : Sq T q c -> rel b q -> qt q <> TEnd -> 
  (forall a q' c', good T a -> qname a = false -> rel true q' -> Sq T q' c' -> Q a c') -> wpf (caseExpression rec ) c Q.
Proof.
  intros Hs HR HP HQ. p_conj. p_rng. unfold caseExpression. yy.
Qed.
Ltac p_sub ::= match goal with
  | |- PosBase.wpf _ _ (handleKeyword _ ) _ _ => p_here h_keyword; p_intro
  | |- PosBase.wpf _ _ (argument _ ) _ _ => p_here h_argument; p_intro
  | |- PosBase.wpf _ _ (keyedEntry _ ) _ _ => p_here h_keyed; p_intro
  | |- PosBase.wpf _ _ (selectorEntry _ ) _ _ => p_here h_selEntry; p_intro
  | |- PosBase.wpf _ _ (typeName _ ) _ _ => (eapply h_typeName; [x_s|eassumption|..]); p_intro
  | |- PosBase.wpf _ _ (arrayExpression _ ) _ _ => p_here h_array; p_intro
  | |- PosBase.wpf _ _ (identifier _) _ _ => eapply h_identifier; [x_s|eassumption|p_intro|p_intro; cbn [nope qp qv qt qs] in *]
  | |- PosBase.wpf _ _ (identifierExpr _) _ _ => eapply h_identifierExpr; [x_s|eassumption|p_intro|p_intro; cbn [nope qp qv qt qs] in *]
  | |- PosBase.wpf _ _ (parameterType_body _ ) _ _ => (eapply h_paramTypeBody; [x_s|eassumption|..]); p_intro
  | |- PosBase.wpf _ _ (parameterListOf _ _) _ _ => (eapply h_paramList; [x_s|eassumption|..]); p_intro
  | |- PosBase.wpf _ _ (optParameterType _ ) _ _ => p_here h_optParamType; p_intro
  | |- PosBase.wpf _ _ (parameterName _ ) _ _ => (eapply h_paramName; [x_s|eassumption|..]); p_intro
  | |- PosBase.wpf _ _ (parameter _ ) _ _ => p_here h_parameter; p_intro
  | |- PosBase.wpf _ _ (attributeAlias _ ) _ _ => (eapply h_attrAlias; [x_s|eassumption|..]); p_intro
  | |- PosBase.wpf _ _ (returnParameter _ ) _ _ => p_here h_returnParam; p_intro
  | |- PosBase.wpf _ _ (parameterList _) _ _ => unfold parameterList
  | |- PosBase.wpf _ _ (returnParameters _) _ _ => unfold returnParameters
  | |- PosBase.wpf _ _ (lambdaParameterList _) _ _ => unfold lambdaParameterList
  | |- PosBase.wpf _ _ (stepProperty _ ) _ _ => (eapply h_stepProperty; [x_s|eassumption|..]); p_intro
  | |- PosBase.wpf _ _ (stateAttribute _ ) _ _ => (eapply h_stateAttr; [x_s|eassumption|..]); p_intro
  | |- PosBase.wpf _ _ (produce _ _) _ _ => p_here h_produce; p_intro
  | |- PosBase.wpf _ _ (resource _ ) _ _ => p_here h_resource; p_intro
  | |- PosBase.wpf _ _ (step _ ) _ _ => p_here h_step; p_intro
  | |- PosBase.wpf _ _ (className _ ) _ _ => (eapply h_className; [x_s|eassumption|..]); p_intro
  | |- PosBase.wpf _ _ (braces _ ) _ _ => (eapply h_braces; [x_s|eassumption|..]); p_intro
  | |- PosBase.wpf _ _ (capabilityMapping _ _ _) _ _ => (eapply h_capMap; [x_s|eassumption|..]); [p_zz|p_intro]
  | |- PosBase.wpf _ _ (selectorsExpression _ _) _ _ => (eapply h_selectors; [x_s|eassumption|..]); [p_zz|p_intro]
  | |- PosBase.wpf _ _ (collectQuery _ ) _ _ => (eapply h_collectQ; [x_s|eassumption|..]); [p_zz|p_intro]
  | |- PosBase.wpf _ _ (collectExpression _ _) _ _ => (eapply h_collect; [x_s|eassumption|..]); [p_zz|p_intro]
  | |- PosBase.wpf _ _ (optReturnType _ ) _ _ => (eapply h_optRet; [x_s|eassumption|..]); p_intro
  | |- PosBase.wpf _ _ (lambda _ ) _ _ => (eapply h_lambda; [x_s|eassumption|..]); [p_zz|p_intro]
  | |- PosBase.wpf _ _ (caseOption _ ) _ _ => p_here h_caseOption; p_intro
  | |- PosBase.wpf _ _ (caseExpression _ ) _ _ => (eapply h_case; [x_s|eassumption|..]); [p_zz|p_intro]
  end.
Lemma h_resBody title b q c (Q : expr -> ctx -> Prop) : Sq T q c -> rel b q -> match title with Some e => good T e | None => True end -> 
  (forall a q' c', rel true q' -> Sq T q' c' -> Q a c') -> wpf (resourceBody rec  title) c Q.
Proof.
  intros Hs HR HP HQ. p_conj. p_rng. unfold resourceBody. yy.
Qed.
Ltac p_sub ::= match goal with
  | |- PosBase.wpf _ _ (handleKeyword _ ) _ _ => p_here h_keyword; p_intro
  | |- PosBase.wpf _ _ (argument _ ) _ _ => p_here h_argument; p_intro
  | |- PosBase.wpf _ _ (keyedEntry _ ) _ _ => p_here h_keyed; p_intro
  | |- PosBase.wpf _ _ (selectorEntry _ ) _ _ => p_here h_selEntry; p_intro
  | |- PosBase.wpf _ _ (typeName _ ) _ _ => (eapply h_typeName; [x_s|eassumption|..]); p_intro
  | |- PosBase.wpf _ _ (arrayExpression _ ) _ _ => p_here h_array; p_intro
  | |- PosBase.wpf _ _ (identifier _) _ _ => eapply h_identifier; [x_s|eassumption|p_intro|p_intro; cbn [nope qp qv qt qs] in *]
  | |- PosBase.wpf _ _ (identifierExpr _) _ _ => eapply h_identifierExpr; [x_s|eassumption|p_intro|p_intro; cbn [nope qp qv qt qs] in *]
  | |- PosBase.wpf _ _ (parameterType_body _ ) _ _ => (eapply h_paramTypeBody; [x_s|eassumption|..]); p_intro
  | |- PosBase.wpf _ _ (parameterListOf _ _) _ _ => (eapply h_paramList; [x_s|eassumption|..]); p_intro
  | |- PosBase.wpf _ _ (optParameterType _ ) _ _ => p_here h_optParamType; p_intro
  | |- PosBase.wpf _ _ (parameterName _ ) _ _ => (eapply h_paramName; [x_s|eassumption|..]); p_intro
  | |- PosBase.wpf _ _ (parameter _ ) _ _ => p_here h_parameter; p_intro
  | |- PosBase.wpf _ _ (attributeAlias _ ) _ _ => (eapply h_attrAlias; [x_s|eassumption|..]); p_intro
  | |- PosBase.wpf _ _ (returnParameter _ ) _ _ => p_here h_returnParam; p_intro
  | |- PosBase.wpf _ _ (parameterList _) _ _ => unfold parameterList
  | |- PosBase.wpf _ _ (returnParameters _) _ _ => unfold returnParameters
  | |- PosBase.wpf _ _ (lambdaParameterList _) _ _ => unfold lambdaParameterList
  | |- PosBase.wpf _ _ (stepProperty _ ) _ _ => (eapply h_stepProperty; [x_s|eassumption|..]); p_intro
  | |- PosBase.wpf _ _ (stateAttribute _ ) _ _ => (eapply h_stateAttr; [x_s|eassumption|..]); p_intro
  | |- PosBase.wpf _ _ (produce _ _) _ _ => p_here h_produce; p_intro
  | |- PosBase.wpf _ _ (resource _ ) _ _ => p_here h_resource; p_intro
  | |- PosBase.wpf _ _ (step _ ) _ _ => p_here h_step; p_intro
  | |- PosBase.wpf _ _ (className _ ) _ _ => (eapply h_className; [x_s|eassumption|..]); p_intro
  | |- PosBase.wpf _ _ (braces _ ) _ _ => (eapply h_braces; [x_s|eassumption|..]); p_intro
  | |- PosBase.wpf _ _ (capabilityMapping _ _ _) _ _ => (eapply h_capMap; [x_s|eassumption|..]); [p_zz|p_intro]
  | |- PosBase.wpf _ _ (selectorsExpression _ _) _ _ => (eapply h_selectors; [x_s|eassumption|..]); [p_zz|p_intro]
  | |- PosBase.wpf _ _ (collectQuery _ ) _ _ => (eapply h_collectQ; [x_s|eassumption|..]); [p_zz|p_intro]
  | |- PosBase.wpf _ _ (collectExpression _ _) _ _ => (eapply h_collect; [x_s|eassumption|..]); [p_zz|p_intro]
  | |- PosBase.wpf _ _ (optReturnType _ ) _ _ => (eapply h_optRet; [x_s|eassumption|..]); p_intro
  | |- PosBase.wpf _ _ (lambda _ ) _ _ => (eapply h_lambda; [x_s|eassumption|..]); [p_zz|p_intro]
  | |- PosBase.wpf _ _ (caseOption _ ) _ _ => p_here h_caseOption; p_intro
  | |- PosBase.wpf _ _ (caseExpression _ ) _ _ => (eapply h_case; [x_s|eassumption|..]); [p_zz|p_intro]
  | |- PosBase.wpf _ _ (resourceBody _ _) _ _ => (eapply h_resBody; [x_s|eassumption|..]); [p_zz|p_intro]
  end.
Lemma h_attrOp  b q c (Q : expr -> ctx -> Prop) : Sq T q c -> rel b q -> 
  (forall a q' c', rel true q' -> Sq T q' c' -> Q a c') -> wpf (attributeOperation rec ) c Q.
Proof.
  intros Hs HR HQ. p_conj. p_rng. unfold attributeOperation. yy.
Qed.
Ltac p_sub ::= match goal with
  | |- PosBase.wpf _ _ (handleKeyword _ ) _ _ => p_here h_keyword; p_intro
  | |- PosBase.wpf _ _ (argument _ ) _ _ => p_here h_argument; p_intro
  | |- PosBase.wpf _ _ (keyedEntry _ ) _ _ => p_here h_keyed; p_intro
  | |- PosBase.wpf _ _ (selectorEntry _ ) _ _ => p_here h_selEntry; p_intro
  | |- PosBase.wpf _ _ (typeName _ ) _ _ => (eapply h_typeName; [x_s|eassumption|..]); p_intro
  | |- PosBase.wpf _ _ (arrayExpression _ ) _ _ => p_here h_array; p_intro
  | |- PosBase.wpf _ _ (identifier _) _ _ => eapply h_identifier; [x_s|eassumption|p_intro|p_intro; cbn [nope qp qv qt qs] in *]
  | |- PosBase.wpf _ _ (identifierExpr _) _ _ => eapply h_identifierExpr; [x_s|eassumption|p_intro|p_intro; cbn [nope qp qv qt qs] in *]
  | |- PosBase.wpf _ _ (parameterType_body _ ) _ _ => (eapply h_paramTypeBody; [x_s|eassumption|..]); p_intro
  | |- PosBase.wpf _ _ (parameterListOf _ _) _ _ => (eapply h_paramList; [x_s|eassumption|..]); p_intro
  | |- PosBase.wpf _ _ (optParameterType _ ) _ _ => p_here h_optParamType; p_intro
  | |- PosBase.wpf _ _ (parameterName _ ) _ _ => (eapply h_paramName; [x_s|eassumption|..]); p_intro
  | |- PosBase.wpf _ _ (parameter _ ) _ _ => p_here h_parameter; p_intro
  | |- PosBase.wpf _ _ (attributeAlias _ ) _ _ => (eapply h_attrAlias; [x_s|eassumption|..]); p_intro
  | |- PosBase.wpf _ _ (returnParameter _ ) _ _ => p_here h_returnParam; p_intro
  | |- PosBase.wpf _ _ (parameterList _) _ _ => unfold parameterList
  | |- PosBase.wpf _ _ (returnParameters _) _ _ => unfold returnParameters
  | |- PosBase.wpf _ _ (lambdaParameterList _) _ _ => unfold lambdaParameterList
  | |- PosBase.wpf _ _ (stepProperty _ ) _ _ => (eapply h_stepProperty; [x_s|eassumption|..]); p_intro
  | |- PosBase.wpf _ _ (stateAttribute _ ) _ _ => (eapply h_stateAttr; [x_s|eassumption|..]); p_intro
  | |- PosBase.wpf _ _ (produce _ _) _ _ => p_here h_produce; p_intro
  | |- PosBase.wpf _ _ (resource _ ) _ _ => p_here h_resource; p_intro
  | |- PosBase.wpf _ _ (step _ ) _ _ => p_here h_step; p_intro
  | |- PosBase.wpf _ _ (className _ ) _ _ => (eapply h_className; [x_s|eassumption|..]); p_intro
  | |- PosBase.wpf _ _ (braces _ ) _ _ => (eapply h_braces; [x_s|eassumption|..]); p_intro
  | |- PosBase.wpf _ _ (capabilityMapping _ _ _) _ _ => (eapply h_capMap; [x_s|eassumption|..]); [p_zz|p_intro]
  | |- PosBase.wpf _ _ (selectorsExpression _ _) _ _ => (eapply h_selectors; [x_s|eassumption|..]); [p_zz|p_intro]
  | |- PosBase.wpf _ _ (collectQuery _ ) _ _ => (eapply h_collectQ; [x_s|eassumption|..]); [p_zz|p_intro]
  | |- PosBase.wpf _ _ (collectExpression _ _) _ _ => (eapply h_collect; [x_s|eassumption|..]); [p_zz|p_intro]
  | |- PosBase.wpf _ _ (optReturnType _ ) _ _ => (eapply h_optRet; [x_s|eassumption|..]); p_intro
  | |- PosBase.wpf _ _ (lambda _ ) _ _ => (eapply h_lambda; [x_s|eassumption|..]); [p_zz|p_intro]
  | |- PosBase.wpf _ _ (caseOption _ ) _ _ => p_here h_caseOption; p_intro
  | |- PosBase.wpf _ _ (caseExpression _ ) _ _ => (eapply h_case; [x_s|eassumption|..]); [p_zz|p_intro]
  | |- PosBase.wpf _ _ (resourceBody _ _) _ _ => (eapply h_resBody; [x_s|eassumption|..]); [p_zz|p_intro]
  | |- PosBase.wpf _ _ (attributeOperation _ ) _ _ => (eapply h_attrOp; [x_s|eassumption|..]); p_intro
  end.
Lemma h_alias  b q c (Q : expr -> ctx -> Prop) : Sq T q c -> rel b q -> qt q <> TEnd -> 
  (forall a q' c', rel true q' -> Sq T q' c' -> Q a c') -> wpf (alias_body rec ) c Q.
Proof.
  intros Hs HR HP HQ. p_conj. p_rng. unfold alias_body. yy.
Qed.
Ltac p_sub ::= match goal with
  | |- PosBase.wpf _ _ (handleKeyword _ ) _ _ => p_here h_keyword; p_intro
  | |- PosBase.wpf _ _ (argument _ ) _ _ => p_here h_argument; p_intro
  | |- PosBase.wpf _ _ (keyedEntry _ ) _ _ => p_here h_keyed; p_intro
  | |- PosBase.wpf _ _ (selectorEntry _ ) _ _ => p_here h_selEntry; p_intro
  | |- PosBase.wpf _ _ (typeName _ ) _ _ => (eapply h_typeName; [x_s|eassumption|..]); p_intro
  | |- PosBase.wpf _ _ (arrayExpression _ ) _ _ => p_here h_array; p_intro
  | |- PosBase.wpf _ _ (identifier _) _ _ => eapply h_identifier; [x_s|eassumption|p_intro|p_intro; cbn [nope qp qv qt qs] in *]
  | |- PosBase.wpf _ _ (identifierExpr _) _ _ => eapply h_identifierExpr; [x_s|eassumption|p_intro|p_intro; cbn [nope qp qv qt qs] in *]
  | |- PosBase.wpf _ _ (parameterType_body _ ) _ _ => (eapply h_paramTypeBody; [x_s|eassumption|..]); p_intro
  | |- PosBase.wpf _ _ (parameterListOf _ _) _ _ => (eapply h_paramList; [x_s|eassumption|..]); p_intro
  | |- PosBase.wpf _ _ (optParameterType _ ) _ _ => p_here h_optParamType; p_intro
  | |- PosBase.wpf _ _ (parameterName _ ) _ _ => (eapply h_paramName; [x_s|eassumption|..]); p_intro
  | |- PosBase.wpf _ _ (parameter _ ) _ _ => p_here h_parameter; p_intro
  | |- PosBase.wpf _ _ (attributeAlias _ ) _ _ => (eapply h_attrAlias; [x_s|eassumption|..]); p_intro
  | |- PosBase.wpf _ _ (returnParameter _ ) _ _ => p_here h_returnParam; p_intro
  | |- PosBase.wpf _ _ (parameterList _) _ _ => unfold parameterList
  | |- PosBase.wpf _ _ (returnParameters _) _ _ => unfold returnParameters
  | |- PosBase.wpf _ _ (lambdaParameterList _) _ _ => unfold lambdaParameterList
  | |- PosBase.wpf _ _ (stepProperty _ ) _ _ => (eapply h_stepProperty; [x_s|eassumption|..]); p_intro
  | |- PosBase.wpf _ _ (stateAttribute _ ) _ _ => (eapply h_stateAttr; [x_s|eassumption|..]); p_intro
  | |- PosBase.wpf _ _ (produce _ _) _ _ => p_here h_produce; p_intro
  | |- PosBase.wpf _ _ (resource _ ) _ _ => p_here h_resource; p_intro
  | |- PosBase.wpf _ _ (step _ ) _ _ => p_here h_step; p_intro
  | |- PosBase.wpf _ _ (className _ ) _ _ => (eapply h_className; [x_s|eassumption|..]); p_intro
  | |- PosBase.wpf _ _ (braces _ ) _ _ => (eapply h_braces; [x_s|eassumption|..]); p_intro
  | |- PosBase.wpf _ _ (capabilityMapping _ _ _) _ _ => (eapply h_capMap; [x_s|eassumption|..]); [p_zz|p_intro]
  | |- PosBase.wpf _ _ (selectorsExpression _ _) _ _ => (eapply h_selectors; [x_s|eassumption|..]); [p_zz|p_intro]
  | |- PosBase.wpf _ _ (collectQuery _ ) _ _ => (eapply h_collectQ; [x_s|eassumption|..]); [p_zz|p_intro]
  | |- PosBase.wpf _ _ (collectExpression _ _) _ _ => (eapply h_collect; [x_s|eassumption|..]); [p_zz|p_intro]
  | |- PosBase.wpf _ _ (optReturnType _ ) _ _ => (eapply h_optRet; [x_s|eassumption|..]); p_intro
  | |- PosBase.wpf _ _ (lambda _ ) _ _ => (eapply h_lambda; [x_s|eassumption|..]); [p_zz|p_intro]
  | |- PosBase.wpf _ _ (caseOption _ ) _ _ => p_here h_caseOption; p_intro
  | |- PosBase.wpf _ _ (caseExpression _ ) _ _ => (eapply h_case; [x_s|eassumption|..]); [p_zz|p_intro]
  | |- PosBase.wpf _ _ (resourceBody _ _) _ _ => (eapply h_resBody; [x_s|eassumption|..]); [p_zz|p_intro]
  | |- PosBase.wpf _ _ (attributeOperation _ ) _ _ => (eapply h_attrOp; [x_s|eassumption|..]); p_intro
  | |- PosBase.wpf _ _ (alias_body _ ) _ _ => (eapply h_alias; [x_s|eassumption|..]); [p_zz|p_intro]
  end.
Lemma h_typeAlias  b q c (Q : expr -> ctx -> Prop) : Sq T q c -> rel b q -> (b = false -> 5 < r0) -> 
  (forall a q' c', good T a -> qname a = false -> rel true q' -> Sq T q' c' -> Q a c') -> wpf (typeAliasOrDefinition rec ) c Q.
Proof.
  intros Hs HR HB HQ. p_conj. p_rng. unfold typeAliasOrDefinition. yy.
Qed.
Ltac p_sub ::= match goal with
  | |- PosBase.wpf _ _ (handleKeyword _ ) _ _ => p_here h_keyword; p_intro
  | |- PosBase.wpf _ _ (argument _ ) _ _ => p_here h_argument; p_intro
  | |- PosBase.wpf _ _ (keyedEntry _ ) _ _ => p_here h_keyed; p_intro
  | |- PosBase.wpf _ _ (selectorEntry _ ) _ _ => p_here h_selEntry; p_intro
  | |- PosBase.wpf _ _ (typeName _ ) _ _ => (eapply h_typeName; [x_s|eassumption|..]); p_intro
  | |- PosBase.wpf _ _ (arrayExpression _ ) _ _ => p_here h_array; p_intro
  | |- PosBase.wpf _ _ (identifier _) _ _ => eapply h_identifier; [x_s|eassumption|p_intro|p_intro; cbn [nope qp qv qt qs] in *]
  | |- PosBase.wpf _ _ (identifierExpr _) _ _ => eapply h_identifierExpr; [x_s|eassumption|p_intro|p_intro; cbn [nope qp qv qt qs] in *]
  | |- PosBase.wpf _ _ (parameterType_body _ ) _ _ => (eapply h_paramTypeBody; [x_s|eassumption|..]); p_intro
  | |- PosBase.wpf _ _ (parameterListOf _ _) _ _ => (eapply h_paramList; [x_s|eassumption|..]); p_intro
  | |- PosBase.wpf _ _ (optParameterType _ ) _ _ => p_here h_optParamType; p_intro
  | |- PosBase.wpf _ _ (parameterName _ ) _ _ => (eapply h_paramName; [x_s|eassumption|..]); p_intro
  | |- PosBase.wpf _ _ (parameter _ ) _ _ => p_here h_parameter; p_intro
  | |- PosBase.wpf _ _ (attributeAlias _ ) _ _ => (eapply h_attrAlias; [x_s|eassumption|..]); p_intro
  | |- PosBase.wpf _ _ (returnParameter _ ) _ _ => p_here h_returnParam; p_intro
  | |- PosBase.wpf _ _ (parameterList _) _ _ => unfold parameterList
  | |- PosBase.wpf _ _ (returnParameters _) _ _ => unfold returnParameters
  | |- PosBase.wpf _ _ (lambdaParameterList _) _ _ => unfold lambdaParameterList
  | |- PosBase.wpf _ _ (stepProperty _ ) _ _ => (eapply h_stepProperty; [x_s|eassumption|..]); p_intro
  | |- PosBase.wpf _ _ (stateAttribute _ ) _ _ => (eapply h_stateAttr; [x_s|eassumption|..]); p_intro
  | |- PosBase.wpf _ _ (produce _ _) _ _ => p_here h_produce; p_intro
  | |- PosBase.wpf _ _ (resource _ ) _ _ => p_here h_resource; p_intro
  | |- PosBase.wpf _ _ (step _ ) _ _ => p_here h_step; p_intro
  | |- PosBase.wpf _ _ (className _ ) _ _ => (eapply h_className; [x_s|eassumption|..]); p_intro
  | |- PosBase.wpf _ _ (braces _ ) _ _ => (eapply h_braces; [x_s|eassumption|..]); p_intro
  | |- PosBase.wpf _ _ (capabilityMapping _ _ _) _ _ => (eapply h_capMap; [x_s|eassumption|..]); [p_zz|p_intro]
  | |- PosBase.wpf _ _ (selectorsExpression _ _) _ _ => (eapply h_selectors; [x_s|eassumption|..]); [p_zz|p_intro]
  | |- PosBase.wpf _ _ (collectQuery _ ) _ _ => (eapply h_collectQ; [x_s|eassumption|..]); [p_zz|p_intro]
  | |- PosBase.wpf _ _ (collectExpression _ _) _ _ => (eapply h_collect; [x_s|eassumption|..]); [p_zz|p_intro]
  | |- PosBase.wpf _ _ (optReturnType _ ) _ _ => (eapply h_optRet; [x_s|eassumption|..]); p_intro
  | |- PosBase.wpf _ _ (lambda _ ) _ _ => (eapply h_lambda; [x_s|eassumption|..]); [p_zz|p_intro]
  | |- PosBase.wpf _ _ (caseOption _ ) _ _ => p_here h_caseOption; p_intro
  | |- PosBase.wpf _ _ (caseExpression _ ) _ _ => (eapply h_case; [x_s|eassumption|..]); [p_zz|p_intro]
  | |- PosBase.wpf _ _ (resourceBody _ _) _ _ => (eapply h_resBody; [x_s|eassumption|..]); [p_zz|p_intro]
  | |- PosBase.wpf _ _ (attributeOperation _ ) _ _ => (eapply h_attrOp; [x_s|eassumption|..]); p_intro
  | |- PosBase.wpf _ _ (alias_body _ ) _ _ => (eapply h_alias; [x_s|eassumption|..]); [p_zz|p_intro]
  | |- PosBase.wpf _ _ (typeAliasOrDefinition _ ) _ _ => p_here h_typeAlias; p_intro
  end.
Lemma h_optParams  b q c (Q : list expr -> ctx -> Prop) : Sq T q c -> rel b q -> 
  (forall a q' c', rel b q' -> Sq T q' c' -> Q a c') -> wpf (optParameterList rec ) c Q.
Proof.
  intros Hs HR HQ. p_conj. p_rng. unfold optParameterList. yy.
Qed.
Ltac p_sub ::= match goal with
  | |- PosBase.wpf _ _ (handleKeyword _ ) _ _ => p_here h_keyword; p_intro
  | |- PosBase.wpf _ _ (argument _ ) _ _ => p_here h_argument; p_intro
  | |- PosBase.wpf _ _ (keyedEntry _ ) _ _ => p_here h_keyed; p_intro
  | |- PosBase.wpf _ _ (selectorEntry _ ) _ _ => p_here h_selEntry; p_intro
  | |- PosBase.wpf _ _ (typeName _ ) _ _ => (eapply h_typeName; [x_s|eassumption|..]); p_intro
  | |- PosBase.wpf _ _ (arrayExpression _ ) _ _ => p_here h_array; p_intro
  | |- PosBase.wpf _ _ (identifier _) _ _ => eapply h_identifier; [x_s|eassumption|p_intro|p_intro; cbn [nope qp qv qt qs] in *]
  | |- PosBase.wpf _ _ (identifierExpr _) _ _ => eapply h_identifierExpr; [x_s|eassumption|p_intro|p_intro; cbn [nope qp qv qt qs] in *]
  | |- PosBase.wpf _ _ (parameterType_body _ ) _ _ => (eapply h_paramTypeBody; [x_s|eassumption|..]); p_intro
  | |- PosBase.wpf _ _ (parameterListOf _ _) _ _ => (eapply h_paramList; [x_s|eassumption|..]); p_intro
  | |- PosBase.wpf _ _ (optParameterType _ ) _ _ => p_here h_optParamType; p_intro
  | |- PosBase.wpf _ _ (parameterName _ ) _ _ => (eapply h_paramName; [x_s|eassumption|..]); p_intro
  | |- PosBase.wpf _ _ (parameter _ ) _ _ => p_here h_parameter; p_intro
  | |- PosBase.wpf _ _ (attributeAlias _ ) _ _ => (eapply h_attrAlias; [x_s|eassumption|..]); p_intro
  | |- PosBase.wpf _ _ (returnParameter _ ) _ _ => p_here h_returnParam; p_intro
  | |- PosBase.wpf _ _ (parameterList _) _ _ => unfold parameterList
  | |- PosBase.wpf _ _ (returnParameters _) _ _ => unfold returnParameters
  | |- PosBase.wpf _ _ (lambdaParameterList _) _ _ => unfold lambdaParameterList
  | |- PosBase.wpf _ _ (stepProperty _ ) _ _ => (eapply h_stepProperty; [x_s|eassumption|..]); p_intro
  | |- PosBase.wpf _ _ (stateAttribute _ ) _ _ => (eapply h_stateAttr; [x_s|eassumption|..]); p_intro
  | |- PosBase.wpf _ _ (produce _ _) _ _ => p_here h_produce; p_intro
  | |- PosBase.wpf _ _ (resource _ ) _ _ => p_here h_resource; p_intro
  | |- PosBase.wpf _ _ (step _ ) _ _ => p_here h_step; p_intro
  | |- PosBase.wpf _ _ (className _ ) _ _ => (eapply h_className; [x_s|eassumption|..]); p_intro
  | |- PosBase.wpf _ _ (braces _ ) _ _ => (eapply h_braces; [x_s|eassumption|..]); p_intro
  | |- PosBase.wpf _ _ (capabilityMapping _ _ _) _ _ => (eapply h_capMap; [x_s|eassumption|..]); [p_zz|p_intro]
  | |- PosBase.wpf _ _ (selectorsExpression _ _) _ _ => (eapply h_selectors; [x_s|eassumption|..]); [p_zz|p_intro]
  | |- PosBase.wpf _ _ (collectQuery _ ) _ _ => (eapply h_collectQ; [x_s|eassumption|..]); [p_zz|p_intro]
  | |- PosBase.wpf _ _ (collectExpression _ _) _ _ => (eapply h_collect; [x_s|eassumption|..]); [p_zz|p_intro]
  | |- PosBase.wpf _ _ (optReturnType _ ) _ _ => (eapply h_optRet; [x_s|eassumption|..]); p_intro
  | |- PosBase.wpf _ _ (lambda _ ) _ _ => (eapply h_lambda; [x_s|eassumption|..]); [p_zz|p_intro]
  | |- PosBase.wpf _ _ (caseOption _ ) _ _ => p_here h_caseOption; p_intro
  | |- PosBase.wpf _ _ (caseExpression _ ) _ _ => (eapply h_case; [x_s|eassumption|..]); [p_zz|p_intro]
  | |- PosBase.wpf _ _ (resourceBody _ _) _ _ => (eapply h_resBody; [x_s|eassumption|..]); [p_zz|p_intro]
  | |- PosBase.wpf _ _ (attributeOperation _ ) _ _ => (eapply h_attrOp; [x_s|eassumption|..]); p_intro
  | |- PosBase.wpf _ _ (alias_body _ ) _ _ => (eapply h_alias; [x_s|eassumption|..]); [p_zz|p_intro]
  | |- PosBase.wpf _ _ (typeAliasOrDefinition _ ) _ _ => p_here h_typeAlias; p_intro
  | |- PosBase.wpf _ _ (optParameterList _ ) _ _ => (eapply h_optParams; [x_s|eassumption|..]); p_intro
  end.
Lemma h_defName code b q c (Q : str -> ctx -> Prop) : Sq T q c -> rel b q -> 
  (forall a, qt q <> TEnd -> Q a c) -> wpf (definitionName code) c Q.
Proof.
  intros Hs HR HQ. p_rng. unfold definitionName. yy.
  all: apply HQ; p_tok.
Qed.

Ltac p_sub ::= match goal with
  | |- PosBase.wpf _ _ (handleKeyword _ ) _ _ => p_here h_keyword; p_intro
  | |- PosBase.wpf _ _ (argument _ ) _ _ => p_here h_argument; p_intro
  | |- PosBase.wpf _ _ (keyedEntry _ ) _ _ => p_here h_keyed; p_intro
  | |- PosBase.wpf _ _ (selectorEntry _ ) _ _ => p_here h_selEntry; p_intro
  | |- PosBase.wpf _ _ (typeName _ ) _ _ => (eapply h_typeName; [x_s|eassumption|..]); p_intro
  | |- PosBase.wpf _ _ (arrayExpression _ ) _ _ => p_here h_array; p_intro
  | |- PosBase.wpf _ _ (identifier _) _ _ => eapply h_identifier; [x_s|eassumption|p_intro|p_intro; cbn [nope qp qv qt qs] in *]
  | |- PosBase.wpf _ _ (identifierExpr _) _ _ => eapply h_identifierExpr; [x_s|eassumption|p_intro|p_intro; cbn [nope qp qv qt qs] in *]
  | |- PosBase.wpf _ _ (parameterType_body _ ) _ _ => (eapply h_paramTypeBody; [x_s|eassumption|..]); p_intro
  | |- PosBase.wpf _ _ (parameterListOf _ _) _ _ => (eapply h_paramList; [x_s|eassumption|..]); p_intro
  | |- PosBase.wpf _ _ (optParameterType _ ) _ _ => p_here h_optParamType; p_intro
  | |- PosBase.wpf _ _ (parameterName _ ) _ _ => (eapply h_paramName; [x_s|eassumption|..]); p_intro
  | |- PosBase.wpf _ _ (parameter _ ) _ _ => p_here h_parameter; p_intro
  | |- PosBase.wpf _ _ (attributeAlias _ ) _ _ => (eapply h_attrAlias; [x_s|eassumption|..]); p_intro
  | |- PosBase.wpf _ _ (returnParameter _ ) _ _ => p_here h_returnParam; p_intro
  | |- PosBase.wpf _ _ (parameterList _) _ _ => unfold parameterList
  | |- PosBase.wpf _ _ (returnParameters _) _ _ => unfold returnParameters
  | |- PosBase.wpf _ _ (lambdaParameterList _) _ _ => unfold lambdaParameterList
  | |- PosBase.wpf _ _ (stepProperty _ ) _ _ => (eapply h_stepProperty; [x_s|eassumption|..]); p_intro
  | |- PosBase.wpf _ _ (stateAttribute _ ) _ _ => (eapply h_stateAttr; [x_s|eassumption|..]); p_intro
  | |- PosBase.wpf _ _ (produce _ _) _ _ => p_here h_produce; p_intro
  | |- PosBase.wpf _ _ (resource _ ) _ _ => p_here h_resource; p_intro
  | |- PosBase.wpf _ _ (step _ ) _ _ => p_here h_step; p_intro
  | |- PosBase.wpf _ _ (className _ ) _ _ => (eapply h_className; [x_s|eassumption|..]); p_intro
  | |- PosBase.wpf _ _ (braces _ ) _ _ => (eapply h_braces; [x_s|eassumption|..]); p_intro
  | |- PosBase.wpf _ _ (capabilityMapping _ _ _) _ _ => (eapply h_capMap; [x_s|eassumption|..]); [p_zz|p_intro]
  | |- PosBase.wpf _ _ (selectorsExpression _ _) _ _ => (eapply h_selectors; [x_s|eassumption|..]); [p_zz|p_intro]
  | |- PosBase.wpf _ _ (collectQuery _ ) _ _ => (eapply h_collectQ; [x_s|eassumption|..]); [p_zz|p_intro]
  | |- PosBase.wpf _ _ (collectExpression _ _) _ _ => (eapply h_collect; [x_s|eassumption|..]); [p_zz|p_intro]
  | |- PosBase.wpf _ _ (optReturnType _ ) _ _ => (eapply h_optRet; [x_s|eassumption|..]); p_intro
  | |- PosBase.wpf _ _ (lambda _ ) _ _ => (eapply h_lambda; [x_s|eassumption|..]); [p_zz|p_intro]
  | |- PosBase.wpf _ _ (caseOption _ ) _ _ => p_here h_caseOption; p_intro
  | |- PosBase.wpf _ _ (caseExpression _ ) _ _ => (eapply h_case; [x_s|eassumption|..]); [p_zz|p_intro]
  | |- PosBase.wpf _ _ (resourceBody _ _) _ _ => (eapply h_resBody; [x_s|eassumption|..]); [p_zz|p_intro]
  | |- PosBase.wpf _ _ (attributeOperation _ ) _ _ => (eapply h_attrOp; [x_s|eassumption|..]); p_intro
  | |- PosBase.wpf _ _ (alias_body _ ) _ _ => (eapply h_alias; [x_s|eassumption|..]); [p_zz|p_intro]
  | |- PosBase.wpf _ _ (typeAliasOrDefinition _ ) _ _ => p_here h_typeAlias; p_intro
  | |- PosBase.wpf _ _ (optParameterList _ ) _ _ => (eapply h_optParams; [x_s|eassumption|..]); p_intro
  | |- PosBase.wpf _ _ (definitionName _) _ _ => eapply h_defName; [x_s|eassumption|p_intro]
  end.
Lemma h_func  b q c (Q : expr -> ctx -> Prop) : Sq T q c -> rel b q -> qt q <> TEnd -> 
  (forall a q' c', good T a -> qname a = false -> rel true q' -> Sq T q' c' -> Q a c') -> wpf (functionDefinition rec ) c Q.
Proof.
  intros Hs HR HP HQ. p_conj. p_rng. unfold functionDefinition. yy.
Qed.
Ltac p_sub ::= match goal with
  | |- PosBase.wpf _ _ (handleKeyword _ ) _ _ => p_here h_keyword; p_intro
  | |- PosBase.wpf _ _ (argument _ ) _ _ => p_here h_argument; p_intro
  | |- PosBase.wpf _ _ (keyedEntry _ ) _ _ => p_here h_keyed; p_intro
  | |- PosBase.wpf _ _ (selectorEntry _ ) _ _ => p_here h_selEntry; p_intro
  | |- PosBase.wpf _ _ (typeName _ ) _ _ => (eapply h_typeName; [x_s|eassumption|..]); p_intro
  | |- PosBase.wpf _ _ (arrayExpression _ ) _ _ => p_here h_array; p_intro
  | |- PosBase.wpf _ _ (identifier _) _ _ => eapply h_identifier; [x_s|eassumption|p_intro|p_intro; cbn [nope qp qv qt qs] in *]
  | |- PosBase.wpf _ _ (identifierExpr _) _ _ => eapply h_identifierExpr; [x_s|eassumption|p_intro|p_intro; cbn [nope qp qv qt qs] in *]
  | |- PosBase.wpf _ _ (parameterType_body _ ) _ _ => (eapply h_paramTypeBody; [x_s|eassumption|..]); p_intro
  | |- PosBase.wpf _ _ (parameterListOf _ _) _ _ => (eapply h_paramList; [x_s|eassumption|..]); p_intro
  | |- PosBase.wpf _ _ (optParameterType _ ) _ _ => p_here h_optParamType; p_intro
  | |- PosBase.wpf _ _ (parameterName _ ) _ _ => (eapply h_paramName; [x_s|eassumption|..]); p_intro
  | |- PosBase.wpf _ _ (parameter _ ) _ _ => p_here h_parameter; p_intro
  | |- PosBase.wpf _ _ (attributeAlias _ ) _ _ => (eapply h_attrAlias; [x_s|eassumption|..]); p_intro
  | |- PosBase.wpf _ _ (returnParameter _ ) _ _ => p_here h_returnParam; p_intro
  | |- PosBase.wpf _ _ (parameterList _) _ _ => unfold parameterList
  | |- PosBase.wpf _ _ (returnParameters _) _ _ => unfold returnParameters
  | |- PosBase.wpf _ _ (lambdaParameterList _) _ _ => unfold lambdaParameterList
  | |- PosBase.wpf _ _ (stepProperty _ ) _ _ => (eapply h_stepProperty; [x_s|eassumption|..]); p_intro
  | |- PosBase.wpf _ _ (stateAttribute _ ) _ _ => (eapply h_stateAttr; [x_s|eassumption|..]); p_intro
  | |- PosBase.wpf _ _ (produce _ _) _ _ => p_here h_produce; p_intro
  | |- PosBase.wpf _ _ (resource _ ) _ _ => p_here h_resource; p_intro
  | |- PosBase.wpf _ _ (step _ ) _ _ => p_here h_step; p_intro
  | |- PosBase.wpf _ _ (className _ ) _ _ => (eapply h_className; [x_s|eassumption|..]); p_intro
  | |- PosBase.wpf _ _ (braces _ ) _ _ => (eapply h_braces; [x_s|eassumption|..]); p_intro
  | |- PosBase.wpf _ _ (capabilityMapping _ _ _) _ _ => (eapply h_capMap; [x_s|eassumption|..]); [p_zz|p_intro]
  | |- PosBase.wpf _ _ (selectorsExpression _ _) _ _ => (eapply h_selectors; [x_s|eassumption|..]); [p_zz|p_intro]
  | |- PosBase.wpf _ _ (collectQuery _ ) _ _ => (eapply h_collectQ; [x_s|eassumption|..]); [p_zz|p_intro]
  | |- PosBase.wpf _ _ (collectExpression _ _) _ _ => (eapply h_collect; [x_s|eassumption|..]); [p_zz|p_intro]
  | |- PosBase.wpf _ _ (optReturnType _ ) _ _ => (eapply h_optRet; [x_s|eassumption|..]); p_intro
  | |- PosBase.wpf _ _ (lambda _ ) _ _ => (eapply h_lambda; [x_s|eassumption|..]); [p_zz|p_intro]
  | |- PosBase.wpf _ _ (caseOption _ ) _ _ => p_here h_caseOption; p_intro
  | |- PosBase.wpf _ _ (caseExpression _ ) _ _ => (eapply h_case; [x_s|eassumption|..]); [p_zz|p_intro]
  | |- PosBase.wpf _ _ (resourceBody _ _) _ _ => (eapply h_resBody; [x_s|eassumption|..]); [p_zz|p_intro]
  | |- PosBase.wpf _ _ (attributeOperation _ ) _ _ => (eapply h_attrOp; [x_s|eassumption|..]); p_intro
  | |- PosBase.wpf _ _ (alias_body _ ) _ _ => (eapply h_alias; [x_s|eassumption|..]); [p_zz|p_intro]
  | |- PosBase.wpf _ _ (typeAliasOrDefinition _ ) _ _ => p_here h_typeAlias; p_intro
  | |- PosBase.wpf _ _ (optParameterList _ ) _ _ => (eapply h_optParams; [x_s|eassumption|..]); p_intro
  | |- PosBase.wpf _ _ (definitionName _) _ _ => eapply h_defName; [x_s|eassumption|p_intro]
  | |- PosBase.wpf _ _ (functionDefinition _ ) _ _ => (eapply h_func; [x_s|eassumption|..]); [p_zz|p_intro]
  end.
Lemma h_plan  b q c (Q : expr -> ctx -> Prop) : Sq T q c -> rel b q -> qt q <> TEnd -> 
  (forall a q' c', good T a -> qname a = false -> rel true q' -> Sq T q' c' -> Q a c') -> wpf (planDefinition rec ) c Q.
Proof.
  intros Hs HR HP HQ. p_conj. p_rng. unfold planDefinition. yy.
Qed.
Ltac p_sub ::= match goal with
  | |- PosBase.wpf _ _ (handleKeyword _ ) _ _ => p_here h_keyword; p_intro
  | |- PosBase.wpf _ _ (argument _ ) _ _ => p_here h_argument; p_intro
  | |- PosBase.wpf _ _ (keyedEntry _ ) _ _ => p_here h_keyed; p_intro
  | |- PosBase.wpf _ _ (selectorEntry _ ) _ _ => p_here h_selEntry; p_intro
  | |- PosBase.wpf _ _ (typeName _ ) _ _ => (eapply h_typeName; [x_s|eassumption|..]); p_intro
  | |- PosBase.wpf _ _ (arrayExpression _ ) _ _ => p_here h_array; p_intro
  | |- PosBase.wpf _ _ (identifier _) _ _ => eapply h_identifier; [x_s|eassumption|p_intro|p_intro; cbn [nope qp qv qt qs] in *]
  | |- PosBase.wpf _ _ (identifierExpr _) _ _ => eapply h_identifierExpr; [x_s|eassumption|p_intro|p_intro; cbn [nope qp qv qt qs] in *]
  | |- PosBase.wpf _ _ (parameterType_body _ ) _ _ => (eapply h_paramTypeBody; [x_s|eassumption|..]); p_intro
  | |- PosBase.wpf _ _ (parameterListOf _ _) _ _ => (eapply h_paramList; [x_s|eassumption|..]); p_intro
  | |- PosBase.wpf _ _ (optParameterType _ ) _ _ => p_here h_optParamType; p_intro
  | |- PosBase.wpf _ _ (parameterName _ ) _ _ => (eapply h_paramName; [x_s|eassumption|..]); p_intro
  | |- PosBase.wpf _ _ (parameter _ ) _ _ => p_here h_parameter; p_intro
  | |- PosBase.wpf _ _ (attributeAlias _ ) _ _ => (eapply h_attrAlias; [x_s|eassumption|..]); p_intro
  | |- PosBase.wpf _ _ (returnParameter _ ) _ _ => p_here h_returnParam; p_intro
  | |- PosBase.wpf _ _ (parameterList _) _ _ => unfold parameterList
  | |- PosBase.wpf _ _ (returnParameters _) _ _ => unfold returnParameters
  | |- PosBase.wpf _ _ (lambdaParameterList _) _ _ => unfold lambdaParameterList
  | |- PosBase.wpf _ _ (stepProperty _ ) _ _ => (eapply h_stepProperty; [x_s|eassumption|..]); p_intro
  | |- PosBase.wpf _ _ (stateAttribute _ ) _ _ => (eapply h_stateAttr; [x_s|eassumption|..]); p_intro
  | |- PosBase.wpf _ _ (produce _ _) _ _ => p_here h_produce; p_intro
  | |- PosBase.wpf _ _ (resource _ ) _ _ => p_here h_resource; p_intro
  | |- PosBase.wpf _ _ (step _ ) _ _ => p_here h_step; p_intro
  | |- PosBase.wpf _ _ (className _ ) _ _ => (eapply h_className; [x_s|eassumption|..]); p_intro
  | |- PosBase.wpf _ _ (braces _ ) _ _ => (eapply h_braces; [x_s|eassumption|..]); p_intro
  | |- PosBase.wpf _ _ (capabilityMapping _ _ _) _ _ => (eapply h_capMap; [x_s|eassumption|..]); [p_zz|p_intro]
  | |- PosBase.wpf _ _ (selectorsExpression _ _) _ _ => (eapply h_selectors; [x_s|eassumption|..]); [p_zz|p_intro]
  | |- PosBase.wpf _ _ (collectQuery _ ) _ _ => (eapply h_collectQ; [x_s|eassumption|..]); [p_zz|p_intro]
  | |- PosBase.wpf _ _ (collectExpression _ _) _ _ => (eapply h_collect; [x_s|eassumption|..]); [p_zz|p_intro]
  | |- PosBase.wpf _ _ (optReturnType _ ) _ _ => (eapply h_optRet; [x_s|eassumption|..]); p_intro
  | |- PosBase.wpf _ _ (lambda _ ) _ _ => (eapply h_lambda; [x_s|eassumption|..]); [p_zz|p_intro]
  | |- PosBase.wpf _ _ (caseOption _ ) _ _ => p_here h_caseOption; p_intro
  | |- PosBase.wpf _ _ (caseExpression _ ) _ _ => (eapply h_case; [x_s|eassumption|..]); [p_zz|p_intro]
  | |- PosBase.wpf _ _ (resourceBody _ _) _ _ => (eapply h_resBody; [x_s|eassumption|..]); [p_zz|p_intro]
  | |- PosBase.wpf _ _ (attributeOperation _ ) _ _ => (eapply h_attrOp; [x_s|eassumption|..]); p_intro
  | |- PosBase.wpf _ _ (alias_body _ ) _ _ => (eapply h_alias; [x_s|eassumption|..]); [p_zz|p_intro]
  | |- PosBase.wpf _ _ (typeAliasOrDefinition _ ) _ _ => p_here h_typeAlias; p_intro
  | |- PosBase.wpf _ _ (optParameterList _ ) _ _ => (eapply h_optParams; [x_s|eassumption|..]); p_intro
  | |- PosBase.wpf _ _ (definitionName _) _ _ => eapply h_defName; [x_s|eassumption|p_intro]
  | |- PosBase.wpf _ _ (functionDefinition _ ) _ _ => (eapply h_func; [x_s|eassumption|..]); [p_zz|p_intro]
  | |- PosBase.wpf _ _ (planDefinition _ ) _ _ => (eapply h_plan; [x_s|eassumption|..]); [p_zz|p_intro]
  end.
Lemma h_hostname  b q c (Q : expr -> ctx -> Prop) : Sq T q c -> rel b q -> (b = false -> 5 < r0) -> 
  (forall a q' c', rel true q' -> Sq T q' c' -> Q a c') -> wpf (hostname rec ) c Q.
Proof.
  intros Hs HR HB HQ. p_conj. p_rng. unfold hostname. yy.
Qed.
Ltac p_sub ::= match goal with
  | |- PosBase.wpf _ _ (handleKeyword _ ) _ _ => p_here h_keyword; p_intro
  | |- PosBase.wpf _ _ (argument _ ) _ _ => p_here h_argument; p_intro
  | |- PosBase.wpf _ _ (keyedEntry _ ) _ _ => p_here h_keyed; p_intro
  | |- PosBase.wpf _ _ (selectorEntry _ ) _ _ => p_here h_selEntry; p_intro
  | |- PosBase.wpf _ _ (typeName _ ) _ _ => (eapply h_typeName; [x_s|eassumption|..]); p_intro
  | |- PosBase.wpf _ _ (arrayExpression _ ) _ _ => p_here h_array; p_intro
  | |- PosBase.wpf _ _ (identifier _) _ _ => eapply h_identifier; [x_s|eassumption|p_intro|p_intro; cbn [nope qp qv qt qs] in *]
  | |- PosBase.wpf _ _ (identifierExpr _) _ _ => eapply h_identifierExpr; [x_s|eassumption|p_intro|p_intro; cbn [nope qp qv qt qs] in *]
  | |- PosBase.wpf _ _ (parameterType_body _ ) _ _ => (eapply h_paramTypeBody; [x_s|eassumption|..]); p_intro
  | |- PosBase.wpf _ _ (parameterListOf _ _) _ _ => (eapply h_paramList; [x_s|eassumption|..]); p_intro
  | |- PosBase.wpf _ _ (optParameterType _ ) _ _ => p_here h_optParamType; p_intro
  | |- PosBase.wpf _ _ (parameterName _ ) _ _ => (eapply h_paramName; [x_s|eassumption|..]); p_intro
  | |- PosBase.wpf _ _ (parameter _ ) _ _ => p_here h_parameter; p_intro
  | |- PosBase.wpf _ _ (attributeAlias _ ) _ _ => (eapply h_attrAlias; [x_s|eassumption|..]); p_intro
  | |- PosBase.wpf _ _ (returnParameter _ ) _ _ => p_here h_returnParam; p_intro
  | |- PosBase.wpf _ _ (parameterList _) _ _ => unfold parameterList
  | |- PosBase.wpf _ _ (returnParameters _) _ _ => unfold returnParameters
  | |- PosBase.wpf _ _ (lambdaParameterList _) _ _ => unfold lambdaParameterList
  | |- PosBase.wpf _ _ (stepProperty _ ) _ _ => (eapply h_stepProperty; [x_s|eassumption|..]); p_intro
  | |- PosBase.wpf _ _ (stateAttribute _ ) _ _ => (eapply h_stateAttr; [x_s|eassumption|..]); p_intro
  | |- PosBase.wpf _ _ (produce _ _) _ _ => p_here h_produce; p_intro
  | |- PosBase.wpf _ _ (resource _ ) _ _ => p_here h_resource; p_intro
  | |- PosBase.wpf _ _ (step _ ) _ _ => p_here h_step; p_intro
  | |- PosBase.wpf _ _ (className _ ) _ _ => (eapply h_className; [x_s|eassumption|..]); p_intro
  | |- PosBase.wpf _ _ (braces _ ) _ _ => (eapply h_braces; [x_s|eassumption|..]); p_intro
  | |- PosBase.wpf _ _ (capabilityMapping _ _ _) _ _ => (eapply h_capMap; [x_s|eassumption|..]); [p_zz|p_intro]
  | |- PosBase.wpf _ _ (selectorsExpression _ _) _ _ => (eapply h_selectors; [x_s|eassumption|..]); [p_zz|p_intro]
  | |- PosBase.wpf _ _ (collectQuery _ ) _ _ => (eapply h_collectQ; [x_s|eassumption|..]); [p_zz|p_intro]
  | |- PosBase.wpf _ _ (collectExpression _ _) _ _ => (eapply h_collect; [x_s|eassumption|..]); [p_zz|p_intro]
  | |- PosBase.wpf _ _ (optReturnType _ ) _ _ => (eapply h_optRet; [x_s|eassumption|..]); p_intro
  | |- PosBase.wpf _ _ (lambda _ ) _ _ => (eapply h_lambda; [x_s|eassumption|..]); [p_zz|p_intro]
  | |- PosBase.wpf _ _ (caseOption _ ) _ _ => p_here h_caseOption; p_intro
  | |- PosBase.wpf _ _ (caseExpression _ ) _ _ => (eapply h_case; [x_s|eassumption|..]); [p_zz|p_intro]
  | |- PosBase.wpf _ _ (resourceBody _ _) _ _ => (eapply h_resBody; [x_s|eassumption|..]); [p_zz|p_intro]
  | |- PosBase.wpf _ _ (attributeOperation _ ) _ _ => (eapply h_attrOp; [x_s|eassumption|..]); p_intro
  | |- PosBase.wpf _ _ (alias_body _ ) _ _ => (eapply h_alias; [x_s|eassumption|..]); [p_zz|p_intro]
  | |- PosBase.wpf _ _ (typeAliasOrDefinition _ ) _ _ => p_here h_typeAlias; p_intro
  | |- PosBase.wpf _ _ (optParameterList _ ) _ _ => (eapply h_optParams; [x_s|eassumption|..]); p_intro
  | |- PosBase.wpf _ _ (definitionName _) _ _ => eapply h_defName; [x_s|eassumption|p_intro]
  | |- PosBase.wpf _ _ (functionDefinition _ ) _ _ => (eapply h_func; [x_s|eassumption|..]); [p_zz|p_intro]
  | |- PosBase.wpf _ _ (planDefinition _ ) _ _ => (eapply h_plan; [x_s|eassumption|..]); [p_zz|p_intro]
  | |- PosBase.wpf _ _ (hostname _ ) _ _ => p_here h_hostname; p_intro
  end.
Lemma h_node  b q c (Q : expr -> ctx -> Prop) : Sq T q c -> rel b q -> qt q <> TEnd -> 
  (forall a q' c', good T a -> qname a = false -> rel true q' -> Sq T q' c' -> Q a c') -> wpf (nodeDefinition rec ) c Q.
Proof.
  intros Hs HR HP HQ. p_conj. p_rng. unfold nodeDefinition. yy.
Qed.
Ltac p_sub ::= match goal with
  | |- PosBase.wpf _ _ (handleKeyword _ ) _ _ => p_here h_keyword; p_intro
  | |- PosBase.wpf _ _ (argument _ ) _ _ => p_here h_argument; p_intro
  | |- PosBase.wpf _ _ (keyedEntry _ ) _ _ => p_here h_keyed; p_intro
  | |- PosBase.wpf _ _ (selectorEntry _ ) _ _ => p_here h_selEntry; p_intro
  | |- PosBase.wpf _ _ (typeName _ ) _ _ => (eapply h_typeName; [x_s|eassumption|..]); p_intro
  | |- PosBase.wpf _ _ (arrayExpression _ ) _ _ => p_here h_array; p_intro
  | |- PosBase.wpf _ _ (identifier _) _ _ => eapply h_identifier; [x_s|eassumption|p_intro|p_intro; cbn [nope qp qv qt qs] in *]
  | |- PosBase.wpf _ _ (identifierExpr _) _ _ => eapply h_identifierExpr; [x_s|eassumption|p_intro|p_intro; cbn [nope qp qv qt qs] in *]
  | |- PosBase.wpf _ _ (parameterType_body _ ) _ _ => (eapply h_paramTypeBody; [x_s|eassumption|..]); p_intro
  | |- PosBase.wpf _ _ (parameterListOf _ _) _ _ => (eapply h_paramList; [x_s|eassumption|..]); p_intro
  | |- PosBase.wpf _ _ (optParameterType _ ) _ _ => p_here h_optParamType; p_intro
  | |- PosBase.wpf _ _ (parameterName _ ) _ _ => (eapply h_paramName; [x_s|eassumption|..]); p_intro
  | |- PosBase.wpf _ _ (parameter _ ) _ _ => p_here h_parameter; p_intro
  | |- PosBase.wpf _ _ (attributeAlias _ ) _ _ => (eapply h_attrAlias; [x_s|eassumption|..]); p_intro
  | |- PosBase.wpf _ _ (returnParameter _ ) _ _ => p_here h_returnParam; p_intro
  | |- PosBase.wpf _ _ (parameterList _) _ _ => unfold parameterList
  | |- PosBase.wpf _ _ (returnParameters _) _ _ => unfold returnParameters
  | |- PosBase.wpf _ _ (lambdaParameterList _) _ _ => unfold lambdaParameterList
  | |- PosBase.wpf _ _ (stepProperty _ ) _ _ => (eapply h_stepProperty; [x_s|eassumption|..]); p_intro
  | |- PosBase.wpf _ _ (stateAttribute _ ) _ _ => (eapply h_stateAttr; [x_s|eassumption|..]); p_intro
  | |- PosBase.wpf _ _ (produce _ _) _ _ => p_here h_produce; p_intro
  | |- PosBase.wpf _ _ (resource _ ) _ _ => p_here h_resource; p_intro
  | |- PosBase.wpf _ _ (step _ ) _ _ => p_here h_step; p_intro
  | |- PosBase.wpf _ _ (className _ ) _ _ => (eapply h_className; [x_s|eassumption|..]); p_intro
  | |- PosBase.wpf _ _ (braces _ ) _ _ => (eapply h_braces; [x_s|eassumption|..]); p_intro
  | |- PosBase.wpf _ _ (capabilityMapping _ _ _) _ _ => (eapply h_capMap; [x_s|eassumption|..]); [p_zz|p_intro]
  | |- PosBase.wpf _ _ (selectorsExpression _ _) _ _ => (eapply h_selectors; [x_s|eassumption|..]); [p_zz|p_intro]
  | |- PosBase.wpf _ _ (collectQuery _ ) _ _ => (eapply h_collectQ; [x_s|eassumption|..]); [p_zz|p_intro]
  | |- PosBase.wpf _ _ (collectExpression _ _) _ _ => (eapply h_collect; [x_s|eassumption|..]); [p_zz|p_intro]
  | |- PosBase.wpf _ _ (optReturnType _ ) _ _ => (eapply h_optRet; [x_s|eassumption|..]); p_intro
  | |- PosBase.wpf _ _ (lambda _ ) _ _ => (eapply h_lambda; [x_s|eassumption|..]); [p_zz|p_intro]
  | |- PosBase.wpf _ _ (caseOption _ ) _ _ => p_here h_caseOption; p_intro
  | |- PosBase.wpf _ _ (caseExpression _ ) _ _ => (eapply h_case; [x_s|eassumption|..]); [p_zz|p_intro]
  | |- PosBase.wpf _ _ (resourceBody _ _) _ _ => (eapply h_resBody; [x_s|eassumption|..]); [p_zz|p_intro]
  | |- PosBase.wpf _ _ (attributeOperation _ ) _ _ => (eapply h_attrOp; [x_s|eassumption|..]); p_intro
  | |- PosBase.wpf _ _ (alias_body _ ) _ _ => (eapply h_alias; [x_s|eassumption|..]); [p_zz|p_intro]
  | |- PosBase.wpf _ _ (typeAliasOrDefinition _ ) _ _ => p_here h_typeAlias; p_intro
  | |- PosBase.wpf _ _ (optParameterList _ ) _ _ => (eapply h_optParams; [x_s|eassumption|..]); p_intro
  | |- PosBase.wpf _ _ (definitionName _) _ _ => eapply h_defName; [x_s|eassumption|p_intro]
  | |- PosBase.wpf _ _ (functionDefinition _ ) _ _ => (eapply h_func; [x_s|eassumption|..]); [p_zz|p_intro]
  | |- PosBase.wpf _ _ (planDefinition _ ) _ _ => (eapply h_plan; [x_s|eassumption|..]); [p_zz|p_intro]
  | |- PosBase.wpf _ _ (hostname _ ) _ _ => p_here h_hostname; p_intro
  | |- PosBase.wpf _ _ (nodeDefinition _ ) _ _ => (eapply h_node; [x_s|eassumption|..]); [p_zz|p_intro]
  end.
Lemma h_class start b q c (Q : expr -> ctx -> Prop) : Sq T q c -> rel b q -> 0 <= start <= L + 1 -> 
  (forall a q' c', good T a -> qname a = false -> rel true q' -> Sq T q' c' -> Q a c') -> wpf (classExpression rec  start) c Q.
Proof.
  intros Hs HR HP HQ. p_conj. p_rng. unfold classExpression. yy.
Qed.
Ltac p_sub ::= match goal with
  | |- PosBase.wpf _ _ (handleKeyword _ ) _ _ => p_here h_keyword; p_intro
  | |- PosBase.wpf _ _ (argument _ ) _ _ => p_here h_argument; p_intro
  | |- PosBase.wpf _ _ (keyedEntry _ ) _ _ => p_here h_keyed; p_intro
  | |- PosBase.wpf _ _ (selectorEntry _ ) _ _ => p_here h_selEntry; p_intro
  | |- PosBase.wpf _ _ (typeName _ ) _ _ => (eapply h_typeName; [x_s|eassumption|..]); p_intro
  | |- PosBase.wpf _ _ (arrayExpression _ ) _ _ => p_here h_array; p_intro
  | |- PosBase.wpf _ _ (identifier _) _ _ => eapply h_identifier; [x_s|eassumption|p_intro|p_intro; cbn [nope qp qv qt qs] in *]
  | |- PosBase.wpf _ _ (identifierExpr _) _ _ => eapply h_identifierExpr; [x_s|eassumption|p_intro|p_intro; cbn [nope qp qv qt qs] in *]
  | |- PosBase.wpf _ _ (parameterType_body _ ) _ _ => (eapply h_paramTypeBody; [x_s|eassumption|..]); p_intro
  | |- PosBase.wpf _ _ (parameterListOf _ _) _ _ => (eapply h_paramList; [x_s|eassumption|..]); p_intro
  | |- PosBase.wpf _ _ (optParameterType _ ) _ _ => p_here h_optParamType; p_intro
  | |- PosBase.wpf _ _ (parameterName _ ) _ _ => (eapply h_paramName; [x_s|eassumption|..]); p_intro
  | |- PosBase.wpf _ _ (parameter _ ) _ _ => p_here h_parameter; p_intro
  | |- PosBase.wpf _ _ (attributeAlias _ ) _ _ => (eapply h_attrAlias; [x_s|eassumption|..]); p_intro
  | |- PosBase.wpf _ _ (returnParameter _ ) _ _ => p_here h_returnParam; p_intro
  | |- PosBase.wpf _ _ (parameterList _) _ _ => unfold parameterList
  | |- PosBase.wpf _ _ (returnParameters _) _ _ => unfold returnParameters
  | |- PosBase.wpf _ _ (lambdaParameterList _) _ _ => unfold lambdaParameterList
  | |- PosBase.wpf _ _ (stepProperty _ ) _ _ => (eapply h_stepProperty; [x_s|eassumption|..]); p_intro
  | |- PosBase.wpf _ _ (stateAttribute _ ) _ _ => (eapply h_stateAttr; [x_s|eassumption|..]); p_intro
  | |- PosBase.wpf _ _ (produce _ _) _ _ => p_here h_produce; p_intro
  | |- PosBase.wpf _ _ (resource _ ) _ _ => p_here h_resource; p_intro
  | |- PosBase.wpf _ _ (step _ ) _ _ => p_here h_step; p_intro
  | |- PosBase.wpf _ _ (className _ ) _ _ => (eapply h_className; [x_s|eassumption|..]); p_intro
  | |- PosBase.wpf _ _ (braces _ ) _ _ => (eapply h_braces; [x_s|eassumption|..]); p_intro
  | |- PosBase.wpf _ _ (capabilityMapping _ _ _) _ _ => (eapply h_capMap; [x_s|eassumption|..]); [p_zz|p_intro]
  | |- PosBase.wpf _ _ (selectorsExpression _ _) _ _ => (eapply h_selectors; [x_s|eassumption|..]); [p_zz|p_intro]
  | |- PosBase.wpf _ _ (collectQuery _ ) _ _ => (eapply h_collectQ; [x_s|eassumption|..]); [p_zz|p_intro]
  | |- PosBase.wpf _ _ (collectExpression _ _) _ _ => (eapply h_collect; [x_s|eassumption|..]); [p_zz|p_intro]
  | |- PosBase.wpf _ _ (optReturnType _ ) _ _ => (eapply h_optRet; [x_s|eassumption|..]); p_intro
  | |- PosBase.wpf _ _ (lambda _ ) _ _ => (eapply h_lambda; [x_s|eassumption|..]); [p_zz|p_intro]
  | |- PosBase.wpf _ _ (caseOption _ ) _ _ => p_here h_caseOption; p_intro
  | |- PosBase.wpf _ _ (caseExpression _ ) _ _ => (eapply h_case; [x_s|eassumption|..]); [p_zz|p_intro]
  | |- PosBase.wpf _ _ (resourceBody _ _) _ _ => (eapply h_resBody; [x_s|eassumption|..]); [p_zz|p_intro]
  | |- PosBase.wpf _ _ (attributeOperation _ ) _ _ => (eapply h_attrOp; [x_s|eassumption|..]); p_intro
  | |- PosBase.wpf _ _ (alias_body _ ) _ _ => (eapply h_alias; [x_s|eassumption|..]); [p_zz|p_intro]
  | |- PosBase.wpf _ _ (typeAliasOrDefinition _ ) _ _ => p_here h_typeAlias; p_intro
  | |- PosBase.wpf _ _ (optParameterList _ ) _ _ => (eapply h_optParams; [x_s|eassumption|..]); p_intro
  | |- PosBase.wpf _ _ (definitionName _) _ _ => eapply h_defName; [x_s|eassumption|p_intro]
  | |- PosBase.wpf _ _ (functionDefinition _ ) _ _ => (eapply h_func; [x_s|eassumption|..]); [p_zz|p_intro]
  | |- PosBase.wpf _ _ (planDefinition _ ) _ _ => (eapply h_plan; [x_s|eassumption|..]); [p_zz|p_intro]
  | |- PosBase.wpf _ _ (hostname _ ) _ _ => p_here h_hostname; p_intro
  | |- PosBase.wpf _ _ (nodeDefinition _ ) _ _ => (eapply h_node; [x_s|eassumption|..]); [p_zz|p_intro]
  | |- PosBase.wpf _ _ (classExpression _ _) _ _ => (eapply h_class; [x_s|eassumption|..]); [p_zz|p_intro]
  end.
Lemma h_site  b q c (Q : expr -> ctx -> Prop) : Sq T q c -> rel b q -> qt q <> TEnd -> 
  (forall a q' c', good T a -> qname a = false -> rel true q' -> Sq T q' c' -> Q a c') -> wpf (siteDefinition rec ) c Q.
Proof.
  intros Hs HR HP HQ. p_conj. p_rng. unfold siteDefinition. yy.
Qed.
Ltac p_sub ::= match goal with
  | |- PosBase.wpf _ _ (handleKeyword _ ) _ _ => p_here h_keyword; p_intro
  | |- PosBase.wpf _ _ (argument _ ) _ _ => p_here h_argument; p_intro
  | |- PosBase.wpf _ _ (keyedEntry _ ) _ _ => p_here h_keyed; p_intro
  | |- PosBase.wpf _ _ (selectorEntry _ ) _ _ => p_here h_selEntry; p_intro
  | |- PosBase.wpf _ _ (typeName _ ) _ _ => (eapply h_typeName; [x_s|eassumption|..]); p_intro
  | |- PosBase.wpf _ _ (arrayExpression _ ) _ _ => p_here h_array; p_intro
  | |- PosBase.wpf _ _ (identifier _) _ _ => eapply h_identifier; [x_s|eassumption|p_intro|p_intro; cbn [nope qp qv qt qs] in *]
  | |- PosBase.wpf _ _ (identifierExpr _) _ _ => eapply h_identifierExpr; [x_s|eassumption|p_intro|p_intro; cbn [nope qp qv qt qs] in *]
  | |- PosBase.wpf _ _ (parameterType_body _ ) _ _ => (eapply h_paramTypeBody; [x_s|eassumption|..]); p_intro
  | |- PosBase.wpf _ _ (parameterListOf _ _) _ _ => (eapply h_paramList; [x_s|eassumption|..]); p_intro
  | |- PosBase.wpf _ _ (optParameterType _ ) _ _ => p_here h_optParamType; p_intro
  | |- PosBase.wpf _ _ (parameterName _ ) _ _ => (eapply h_paramName; [x_s|eassumption|..]); p_intro
  | |- PosBase.wpf _ _ (parameter _ ) _ _ => p_here h_parameter; p_intro
  | |- PosBase.wpf _ _ (attributeAlias _ ) _ _ => (eapply h_attrAlias; [x_s|eassumption|..]); p_intro
  | |- PosBase.wpf _ _ (returnParameter _ ) _ _ => p_here h_returnParam; p_intro
  | |- PosBase.wpf _ _ (parameterList _) _ _ => unfold parameterList
  | |- PosBase.wpf _ _ (returnParameters _) _ _ => unfold returnParameters
  | |- PosBase.wpf _ _ (lambdaParameterList _) _ _ => unfold lambdaParameterList
  | |- PosBase.wpf _ _ (stepProperty _ ) _ _ => (eapply h_stepProperty; [x_s|eassumption|..]); p_intro
  | |- PosBase.wpf _ _ (stateAttribute _ ) _ _ => (eapply h_stateAttr; [x_s|eassumption|..]); p_intro
  | |- PosBase.wpf _ _ (produce _ _) _ _ => p_here h_produce; p_intro
  | |- PosBase.wpf _ _ (resource _ ) _ _ => p_here h_resource; p_intro
  | |- PosBase.wpf _ _ (step _ ) _ _ => p_here h_step; p_intro
  | |- PosBase.wpf _ _ (className _ ) _ _ => (eapply h_className; [x_s|eassumption|..]); p_intro
  | |- PosBase.wpf _ _ (braces _ ) _ _ => (eapply h_braces; [x_s|eassumption|..]); p_intro
  | |- PosBase.wpf _ _ (capabilityMapping _ _ _) _ _ => (eapply h_capMap; [x_s|eassumption|..]); [p_zz|p_intro]
  | |- PosBase.wpf _ _ (selectorsExpression _ _) _ _ => (eapply h_selectors; [x_s|eassumption|..]); [p_zz|p_intro]
  | |- PosBase.wpf _ _ (collectQuery _ ) _ _ => (eapply h_collectQ; [x_s|eassumption|..]); [p_zz|p_intro]
  | |- PosBase.wpf _ _ (collectExpression _ _) _ _ => (eapply h_collect; [x_s|eassumption|..]); [p_zz|p_intro]
  | |- PosBase.wpf _ _ (optReturnType _ ) _ _ => (eapply h_optRet; [x_s|eassumption|..]); p_intro
  | |- PosBase.wpf _ _ (lambda _ ) _ _ => (eapply h_lambda; [x_s|eassumption|..]); [p_zz|p_intro]
  | |- PosBase.wpf _ _ (caseOption _ ) _ _ => p_here h_caseOption; p_intro
  | |- PosBase.wpf _ _ (caseExpression _ ) _ _ => (eapply h_case; [x_s|eassumption|..]); [p_zz|p_intro]
  | |- PosBase.wpf _ _ (resourceBody _ _) _ _ => (eapply h_resBody; [x_s|eassumption|..]); [p_zz|p_intro]
  | |- PosBase.wpf _ _ (attributeOperation _ ) _ _ => (eapply h_attrOp; [x_s|eassumption|..]); p_intro
  | |- PosBase.wpf _ _ (alias_body _ ) _ _ => (eapply h_alias; [x_s|eassumption|..]); [p_zz|p_intro]
  | |- PosBase.wpf _ _ (typeAliasOrDefinition _ ) _ _ => p_here h_typeAlias; p_intro
  | |- PosBase.wpf _ _ (optParameterList _ ) _ _ => (eapply h_optParams; [x_s|eassumption|..]); p_intro
  | |- PosBase.wpf _ _ (definitionName _) _ _ => eapply h_defName; [x_s|eassumption|p_intro]
  | |- PosBase.wpf _ _ (functionDefinition _ ) _ _ => (eapply h_func; [x_s|eassumption|..]); [p_zz|p_intro]
  | |- PosBase.wpf _ _ (planDefinition _ ) _ _ => (eapply h_plan; [x_s|eassumption|..]); [p_zz|p_intro]
  | |- PosBase.wpf _ _ (hostname _ ) _ _ => p_here h_hostname; p_intro
  | |- PosBase.wpf _ _ (nodeDefinition _ ) _ _ => (eapply h_node; [x_s|eassumption|..]); [p_zz|p_intro]
  | |- PosBase.wpf _ _ (classExpression _ _) _ _ => (eapply h_class; [x_s|eassumption|..]); [p_zz|p_intro]
  | |- PosBase.wpf _ _ (siteDefinition _ ) _ _ => (eapply h_site; [x_s|eassumption|..]); [p_zz|p_intro]
  end.
Lemma h_resDef k b q c (Q : expr -> ctx -> Prop) : Sq T q c -> rel b q -> qt q <> TEnd -> 
  (forall a q' c', good T a -> qname a = false -> rel true q' -> Sq T q' c' -> Q a c') -> wpf (resourceDefinition rec  k) c Q.
Proof.
  intros Hs HR HP HQ. p_conj. p_rng. unfold resourceDefinition. yy.
Qed.
Ltac p_sub ::= match goal with
  | |- PosBase.wpf _ _ (handleKeyword _ ) _ _ => p_here h_keyword; p_intro
  | |- PosBase.wpf _ _ (argument _ ) _ _ => p_here h_argument; p_intro
  | |- PosBase.wpf _ _ (keyedEntry _ ) _ _ => p_here h_keyed; p_intro
  | |- PosBase.wpf _ _ (selectorEntry _ ) _ _ => p_here h_selEntry; p_intro
  | |- PosBase.wpf _ _ (typeName _ ) _ _ => (eapply h_typeName; [x_s|eassumption|..]); p_intro
  | |- PosBase.wpf _ _ (arrayExpression _ ) _ _ => p_here h_array; p_intro
  | |- PosBase.wpf _ _ (identifier _) _ _ => eapply h_identifier; [x_s|eassumption|p_intro|p_intro; cbn [nope qp qv qt qs] in *]
  | |- PosBase.wpf _ _ (identifierExpr _) _ _ => eapply h_identifierExpr; [x_s|eassumption|p_intro|p_intro; cbn [nope qp qv qt qs] in *]
  | |- PosBase.wpf _ _ (parameterType_body _ ) _ _ => (eapply h_paramTypeBody; [x_s|eassumption|..]); p_intro
  | |- PosBase.wpf _ _ (parameterListOf _ _) _ _ => (eapply h_paramList; [x_s|eassumption|..]); p_intro
  | |- PosBase.wpf _ _ (optParameterType _ ) _ _ => p_here h_optParamType; p_intro
  | |- PosBase.wpf _ _ (parameterName _ ) _ _ => (eapply h_paramName; [x_s|eassumption|..]); p_intro
  | |- PosBase.wpf _ _ (parameter _ ) _ _ => p_here h_parameter; p_intro
  | |- PosBase.wpf _ _ (attributeAlias _ ) _ _ => (eapply h_attrAlias; [x_s|eassumption|..]); p_intro
  | |- PosBase.wpf _ _ (returnParameter _ ) _ _ => p_here h_returnParam; p_intro
  | |- PosBase.wpf _ _ (parameterList _) _ _ => unfold parameterList
  | |- PosBase.wpf _ _ (returnParameters _) _ _ => unfold returnParameters
  | |- PosBase.wpf _ _ (lambdaParameterList _) _ _ => unfold lambdaParameterList
  | |- PosBase.wpf _ _ (stepProperty _ ) _ _ => (eapply h_stepProperty; [x_s|eassumption|..]); p_intro
  | |- PosBase.wpf _ _ (stateAttribute _ ) _ _ => (eapply h_stateAttr; [x_s|eassumption|..]); p_intro
  | |- PosBase.wpf _ _ (produce _ _) _ _ => p_here h_produce; p_intro
  | |- PosBase.wpf _ _ (resource _ ) _ _ => p_here h_resource; p_intro
  | |- PosBase.wpf _ _ (step _ ) _ _ => p_here h_step; p_intro
  | |- PosBase.wpf _ _ (className _ ) _ _ => (eapply h_className; [x_s|eassumption|..]); p_intro
  | |- PosBase.wpf _ _ (braces _ ) _ _ => (eapply h_braces; [x_s|eassumption|..]); p_intro
  | |- PosBase.wpf _ _ (capabilityMapping _ _ _) _ _ => (eapply h_capMap; [x_s|eassumption|..]); [p_zz|p_intro]
  | |- PosBase.wpf _ _ (selectorsExpression _ _) _ _ => (eapply h_selectors; [x_s|eassumption|..]); [p_zz|p_intro]
  | |- PosBase.wpf _ _ (collectQuery _ ) _ _ => (eapply h_collectQ; [x_s|eassumption|..]); [p_zz|p_intro]
  | |- PosBase.wpf _ _ (collectExpression _ _) _ _ => (eapply h_collect; [x_s|eassumption|..]); [p_zz|p_intro]
  | |- PosBase.wpf _ _ (optReturnType _ ) _ _ => (eapply h_optRet; [x_s|eassumption|..]); p_intro
  | |- PosBase.wpf _ _ (lambda _ ) _ _ => (eapply h_lambda; [x_s|eassumption|..]); [p_zz|p_intro]
  | |- PosBase.wpf _ _ (caseOption _ ) _ _ => p_here h_caseOption; p_intro
  | |- PosBase.wpf _ _ (caseExpression _ ) _ _ => (eapply h_case; [x_s|eassumption|..]); [p_zz|p_intro]
  | |- PosBase.wpf _ _ (resourceBody _ _) _ _ => (eapply h_resBody; [x_s|eassumption|..]); [p_zz|p_intro]
  | |- PosBase.wpf _ _ (attributeOperation _ ) _ _ => (eapply h_attrOp; [x_s|eassumption|..]); p_intro
  | |- PosBase.wpf _ _ (alias_body _ ) _ _ => (eapply h_alias; [x_s|eassumption|..]); [p_zz|p_intro]
  | |- PosBase.wpf _ _ (typeAliasOrDefinition _ ) _ _ => p_here h_typeAlias; p_intro
  | |- PosBase.wpf _ _ (optParameterList _ ) _ _ => (eapply h_optParams; [x_s|eassumption|..]); p_intro
  | |- PosBase.wpf _ _ (definitionName _) _ _ => eapply h_defName; [x_s|eassumption|p_intro]
  | |- PosBase.wpf _ _ (functionDefinition _ ) _ _ => (eapply h_func; [x_s|eassumption|..]); [p_zz|p_intro]
  | |- PosBase.wpf _ _ (planDefinition _ ) _ _ => (eapply h_plan; [x_s|eassumption|..]); [p_zz|p_intro]
  | |- PosBase.wpf _ _ (hostname _ ) _ _ => p_here h_hostname; p_intro
  | |- PosBase.wpf _ _ (nodeDefinition _ ) _ _ => (eapply h_node; [x_s|eassumption|..]); [p_zz|p_intro]
  | |- PosBase.wpf _ _ (classExpression _ _) _ _ => (eapply h_class; [x_s|eassumption|..]); [p_zz|p_intro]
  | |- PosBase.wpf _ _ (siteDefinition _ ) _ _ => (eapply h_site; [x_s|eassumption|..]); [p_zz|p_intro]
  | |- PosBase.wpf _ _ (resourceDefinition _ _) _ _ => (eapply h_resDef; [x_s|eassumption|..]); [p_zz|p_intro]
  end.
Lemma h_stepStyle  b q c (Q : style -> ctx -> Prop) : Sq T q c -> rel b q -> 
  (forall a q' c', rel true q' -> Sq T q' c' -> Q a c') -> wpf (stepStyle rec ) c Q.
Proof.
  intros Hs HR HQ. p_conj. p_rng. unfold stepStyle. yy.
Qed.
Ltac p_sub ::= match goal with
  | |- PosBase.wpf _ _ (handleKeyword _ ) _ _ => p_here h_keyword; p_intro
  | |- PosBase.wpf _ _ (argument _ ) _ _ => p_here h_argument; p_intro
  | |- PosBase.wpf _ _ (keyedEntry _ ) _ _ => p_here h_keyed; p_intro
  | |- PosBase.wpf _ _ (selectorEntry _ ) _ _ => p_here h_selEntry; p_intro
  | |- PosBase.wpf _ _ (typeName _ ) _ _ => (eapply h_typeName; [x_s|eassumption|..]); p_intro
  | |- PosBase.wpf _ _ (arrayExpression _ ) _ _ => p_here h_array; p_intro
  | |- PosBase.wpf _ _ (identifier _) _ _ => eapply h_identifier; [x_s|eassumption|p_intro|p_intro; cbn [nope qp qv qt qs] in *]
  | |- PosBase.wpf _ _ (identifierExpr _) _ _ => eapply h_identifierExpr; [x_s|eassumption|p_intro|p_intro; cbn [nope qp qv qt qs] in *]
  | |- PosBase.wpf _ _ (parameterType_body _ ) _ _ => (eapply h_paramTypeBody; [x_s|eassumption|..]); p_intro
  | |- PosBase.wpf _ _ (parameterListOf _ _) _ _ => (eapply h_paramList; [x_s|eassumption|..]); p_intro
  | |- PosBase.wpf _ _ (optParameterType _ ) _ _ => p_here h_optParamType; p_intro
  | |- PosBase.wpf _ _ (parameterName _ ) _ _ => (eapply h_paramName; [x_s|eassumption|..]); p_intro
  | |- PosBase.wpf _ _ (parameter _ ) _ _ => p_here h_parameter; p_intro
  | |- PosBase.wpf _ _ (attributeAlias _ ) _ _ => (eapply h_attrAlias; [x_s|eassumption|..]); p_intro
  | |- PosBase.wpf _ _ (returnParameter _ ) _ _ => p_here h_returnParam; p_intro
  | |- PosBase.wpf _ _ (parameterList _) _ _ => unfold parameterList
  | |- PosBase.wpf _ _ (returnParameters _) _ _ => unfold returnParameters
  | |- PosBase.wpf _ _ (lambdaParameterList _) _ _ => unfold lambdaParameterList
  | |- PosBase.wpf _ _ (stepProperty _ ) _ _ => (eapply h_stepProperty; [x_s|eassumption|..]); p_intro
  | |- PosBase.wpf _ _ (stateAttribute _ ) _ _ => (eapply h_stateAttr; [x_s|eassumption|..]); p_intro
  | |- PosBase.wpf _ _ (produce _ _) _ _ => p_here h_produce; p_intro
  | |- PosBase.wpf _ _ (resource _ ) _ _ => p_here h_resource; p_intro
  | |- PosBase.wpf _ _ (step _ ) _ _ => p_here h_step; p_intro
  | |- PosBase.wpf _ _ (className _ ) _ _ => (eapply h_className; [x_s|eassumption|..]); p_intro
  | |- PosBase.wpf _ _ (braces _ ) _ _ => (eapply h_braces; [x_s|eassumption|..]); p_intro
  | |- PosBase.wpf _ _ (capabilityMapping _ _ _) _ _ => (eapply h_capMap; [x_s|eassumption|..]); [p_zz|p_intro]
  | |- PosBase.wpf _ _ (selectorsExpression _ _) _ _ => (eapply h_selectors; [x_s|eassumption|..]); [p_zz|p_intro]
  | |- PosBase.wpf _ _ (collectQuery _ ) _ _ => (eapply h_collectQ; [x_s|eassumption|..]); [p_zz|p_intro]
  | |- PosBase.wpf _ _ (collectExpression _ _) _ _ => (eapply h_collect; [x_s|eassumption|..]); [p_zz|p_intro]
  | |- PosBase.wpf _ _ (optReturnType _ ) _ _ => (eapply h_optRet; [x_s|eassumption|..]); p_intro
  | |- PosBase.wpf _ _ (lambda _ ) _ _ => (eapply h_lambda; [x_s|eassumption|..]); [p_zz|p_intro]
  | |- PosBase.wpf _ _ (caseOption _ ) _ _ => p_here h_caseOption; p_intro
  | |- PosBase.wpf _ _ (caseExpression _ ) _ _ => (eapply h_case; [x_s|eassumption|..]); [p_zz|p_intro]
  | |- PosBase.wpf _ _ (resourceBody _ _) _ _ => (eapply h_resBody; [x_s|eassumption|..]); [p_zz|p_intro]
  | |- PosBase.wpf _ _ (attributeOperation _ ) _ _ => (eapply h_attrOp; [x_s|eassumption|..]); p_intro
  | |- PosBase.wpf _ _ (alias_body _ ) _ _ => (eapply h_alias; [x_s|eassumption|..]); [p_zz|p_intro]
  | |- PosBase.wpf _ _ (typeAliasOrDefinition _ ) _ _ => p_here h_typeAlias; p_intro
  | |- PosBase.wpf _ _ (optParameterList _ ) _ _ => (eapply h_optParams; [x_s|eassumption|..]); p_intro
  | |- PosBase.wpf _ _ (definitionName _) _ _ => eapply h_defName; [x_s|eassumption|p_intro]
  | |- PosBase.wpf _ _ (functionDefinition _ ) _ _ => (eapply h_func; [x_s|eassumption|..]); [p_zz|p_intro]
  | |- PosBase.wpf _ _ (planDefinition _ ) _ _ => (eapply h_plan; [x_s|eassumption|..]); [p_zz|p_intro]
  | |- PosBase.wpf _ _ (hostname _ ) _ _ => p_here h_hostname; p_intro
  | |- PosBase.wpf _ _ (nodeDefinition _ ) _ _ => (eapply h_node; [x_s|eassumption|..]); [p_zz|p_intro]
  | |- PosBase.wpf _ _ (classExpression _ _) _ _ => (eapply h_class; [x_s|eassumption|..]); [p_zz|p_intro]
  | |- PosBase.wpf _ _ (siteDefinition _ ) _ _ => (eapply h_site; [x_s|eassumption|..]); [p_zz|p_intro]
  | |- PosBase.wpf _ _ (resourceDefinition _ _) _ _ => (eapply h_resDef; [x_s|eassumption|..]); [p_zz|p_intro]
  | |- PosBase.wpf _ _ (stepStyle _ ) _ _ => (eapply h_stepStyle; [x_s|eassumption|..]); p_intro
  end.
Lemma h_stepName st b q c (Q : str -> ctx -> Prop) : Sq T q c -> rel b q -> 
  (forall a q' c', rel true q' -> Sq T q' c' -> Q a c') -> wpf (stepName rec  st) c Q.
Proof.
  intros Hs HR HQ. p_conj. p_rng. unfold stepName. yy.
Qed.
Ltac p_sub ::= match goal with
  | |- PosBase.wpf _ _ (handleKeyword _ ) _ _ => p_here h_keyword; p_intro
  | |- PosBase.wpf _ _ (argument _ ) _ _ => p_here h_argument; p_intro
  | |- PosBase.wpf _ _ (keyedEntry _ ) _ _ => p_here h_keyed; p_intro
  | |- PosBase.wpf _ _ (selectorEntry _ ) _ _ => p_here h_selEntry; p_intro
  | |- PosBase.wpf _ _ (typeName _ ) _ _ => (eapply h_typeName; [x_s|eassumption|..]); p_intro
  | |- PosBase.wpf _ _ (arrayExpression _ ) _ _ => p_here h_array; p_intro
  | |- PosBase.wpf _ _ (identifier _) _ _ => eapply h_identifier; [x_s|eassumption|p_intro|p_intro; cbn [nope qp qv qt qs] in *]
  | |- PosBase.wpf _ _ (identifierExpr _) _ _ => eapply h_identifierExpr; [x_s|eassumption|p_intro|p_intro; cbn [nope qp qv qt qs] in *]
  | |- PosBase.wpf _ _ (parameterType_body _ ) _ _ => (eapply h_paramTypeBody; [x_s|eassumption|..]); p_intro
  | |- PosBase.wpf _ _ (parameterListOf _ _) _ _ => (eapply h_paramList; [x_s|eassumption|..]); p_intro
  | |- PosBase.wpf _ _ (optParameterType _ ) _ _ => p_here h_optParamType; p_intro
  | |- PosBase.wpf _ _ (parameterName _ ) _ _ => (eapply h_paramName; [x_s|eassumption|..]); p_intro
  | |- PosBase.wpf _ _ (parameter _ ) _ _ => p_here h_parameter; p_intro
  | |- PosBase.wpf _ _ (attributeAlias _ ) _ _ => (eapply h_attrAlias; [x_s|eassumption|..]); p_intro
  | |- PosBase.wpf _ _ (returnParameter _ ) _ _ => p_here h_returnParam; p_intro
  | |- PosBase.wpf _ _ (parameterList _) _ _ => unfold parameterList
  | |- PosBase.wpf _ _ (returnParameters _) _ _ => unfold returnParameters
  | |- PosBase.wpf _ _ (lambdaParameterList _) _ _ => unfold lambdaParameterList
  | |- PosBase.wpf _ _ (stepProperty _ ) _ _ => (eapply h_stepProperty; [x_s|eassumption|..]); p_intro
  | |- PosBase.wpf _ _ (stateAttribute _ ) _ _ => (eapply h_stateAttr; [x_s|eassumption|..]); p_intro
  | |- PosBase.wpf _ _ (produce _ _) _ _ => p_here h_produce; p_intro
  | |- PosBase.wpf _ _ (resource _ ) _ _ => p_here h_resource; p_intro
  | |- PosBase.wpf _ _ (step _ ) _ _ => p_here h_step; p_intro
  | |- PosBase.wpf _ _ (className _ ) _ _ => (eapply h_className; [x_s|eassumption|..]); p_intro
  | |- PosBase.wpf _ _ (braces _ ) _ _ => (eapply h_braces; [x_s|eassumption|..]); p_intro
  | |- PosBase.wpf _ _ (capabilityMapping _ _ _) _ _ => (eapply h_capMap; [x_s|eassumption|..]); [p_zz|p_intro]
  | |- PosBase.wpf _ _ (selectorsExpression _ _) _ _ => (eapply h_selectors; [x_s|eassumption|..]); [p_zz|p_intro]
  | |- PosBase.wpf _ _ (collectQuery _ ) _ _ => (eapply h_collectQ; [x_s|eassumption|..]); [p_zz|p_intro]
  | |- PosBase.wpf _ _ (collectExpression _ _) _ _ => (eapply h_collect; [x_s|eassumption|..]); [p_zz|p_intro]
  | |- PosBase.wpf _ _ (optReturnType _ ) _ _ => (eapply h_optRet; [x_s|eassumption|..]); p_intro
  | |- PosBase.wpf _ _ (lambda _ ) _ _ => (eapply h_lambda; [x_s|eassumption|..]); [p_zz|p_intro]
  | |- PosBase.wpf _ _ (caseOption _ ) _ _ => p_here h_caseOption; p_intro
  | |- PosBase.wpf _ _ (caseExpression _ ) _ _ => (eapply h_case; [x_s|eassumption|..]); [p_zz|p_intro]
  | |- PosBase.wpf _ _ (resourceBody _ _) _ _ => (eapply h_resBody; [x_s|eassumption|..]); [p_zz|p_intro]
  | |- PosBase.wpf _ _ (attributeOperation _ ) _ _ => (eapply h_attrOp; [x_s|eassumption|..]); p_intro
  | |- PosBase.wpf _ _ (alias_body _ ) _ _ => (eapply h_alias; [x_s|eassumption|..]); [p_zz|p_intro]
  | |- PosBase.wpf _ _ (typeAliasOrDefinition _ ) _ _ => p_here h_typeAlias; p_intro
  | |- PosBase.wpf _ _ (optParameterList _ ) _ _ => (eapply h_optParams; [x_s|eassumption|..]); p_intro
  | |- PosBase.wpf _ _ (definitionName _) _ _ => eapply h_defName; [x_s|eassumption|p_intro]
  | |- PosBase.wpf _ _ (functionDefinition _ ) _ _ => (eapply h_func; [x_s|eassumption|..]); [p_zz|p_intro]
  | |- PosBase.wpf _ _ (planDefinition _ ) _ _ => (eapply h_plan; [x_s|eassumption|..]); [p_zz|p_intro]
  | |- PosBase.wpf _ _ (hostname _ ) _ _ => p_here h_hostname; p_intro
  | |- PosBase.wpf _ _ (nodeDefinition _ ) _ _ => (eapply h_node; [x_s|eassumption|..]); [p_zz|p_intro]
  | |- PosBase.wpf _ _ (classExpression _ _) _ _ => (eapply h_class; [x_s|eassumption|..]); [p_zz|p_intro]
  | |- PosBase.wpf _ _ (siteDefinition _ ) _ _ => (eapply h_site; [x_s|eassumption|..]); [p_zz|p_intro]
  | |- PosBase.wpf _ _ (resourceDefinition _ _) _ _ => (eapply h_resDef; [x_s|eassumption|..]); [p_zz|p_intro]
  | |- PosBase.wpf _ _ (stepStyle _ ) _ _ => (eapply h_stepStyle; [x_s|eassumption|..]); p_intro
  | |- PosBase.wpf _ _ (stepName _ _) _ _ => (eapply h_stepName; [x_s|eassumption|..]); p_intro
  end.
Lemma h_stepExpr  b q c (Q : expr -> ctx -> Prop) : Sq T q c -> rel b q -> (b = false -> 5 < r0) -> 
  (forall a q' c', rel true q' -> Sq T q' c' -> Q a c') -> wpf (stepExpression rec ) c Q.
Proof.
  intros Hs HR HB HQ. p_conj. p_rng. unfold stepExpression. yy.
Qed.
Ltac p_sub ::= match goal with
  | |- PosBase.wpf _ _ (handleKeyword _ ) _ _ => p_here h_keyword; p_intro
  | |- PosBase.wpf _ _ (argument _ ) _ _ => p_here h_argument; p_intro
  | |- PosBase.wpf _ _ (keyedEntry _ ) _ _ => p_here h_keyed; p_intro
  | |- PosBase.wpf _ _ (selectorEntry _ ) _ _ => p_here h_selEntry; p_intro
  | |- PosBase.wpf _ _ (typeName _ ) _ _ => (eapply h_typeName; [x_s|eassumption|..]); p_intro
  | |- PosBase.wpf _ _ (arrayExpression _ ) _ _ => p_here h_array; p_intro
  | |- PosBase.wpf _ _ (identifier _) _ _ => eapply h_identifier; [x_s|eassumption|p_intro|p_intro; cbn [nope qp qv qt qs] in *]
  | |- PosBase.wpf _ _ (identifierExpr _) _ _ => eapply h_identifierExpr; [x_s|eassumption|p_intro|p_intro; cbn [nope qp qv qt qs] in *]
  | |- PosBase.wpf _ _ (parameterType_body _ ) _ _ => (eapply h_paramTypeBody; [x_s|eassumption|..]); p_intro
  | |- PosBase.wpf _ _ (parameterListOf _ _) _ _ => (eapply h_paramList; [x_s|eassumption|..]); p_intro
  | |- PosBase.wpf _ _ (optParameterType _ ) _ _ => p_here h_optParamType; p_intro
  | |- PosBase.wpf _ _ (parameterName _ ) _ _ => (eapply h_paramName; [x_s|eassumption|..]); p_intro
  | |- PosBase.wpf _ _ (parameter _ ) _ _ => p_here h_parameter; p_intro
  | |- PosBase.wpf _ _ (attributeAlias _ ) _ _ => (eapply h_attrAlias; [x_s|eassumption|..]); p_intro
  | |- PosBase.wpf _ _ (returnParameter _ ) _ _ => p_here h_returnParam; p_intro
  | |- PosBase.wpf _ _ (parameterList _) _ _ => unfold parameterList
  | |- PosBase.wpf _ _ (returnParameters _) _ _ => unfold returnParameters
  | |- PosBase.wpf _ _ (lambdaParameterList _) _ _ => unfold lambdaParameterList
  | |- PosBase.wpf _ _ (stepProperty _ ) _ _ => (eapply h_stepProperty; [x_s|eassumption|..]); p_intro
  | |- PosBase.wpf _ _ (stateAttribute _ ) _ _ => (eapply h_stateAttr; [x_s|eassumption|..]); p_intro
  | |- PosBase.wpf _ _ (produce _ _) _ _ => p_here h_produce; p_intro
  | |- PosBase.wpf _ _ (resource _ ) _ _ => p_here h_resource; p_intro
  | |- PosBase.wpf _ _ (step _ ) _ _ => p_here h_step; p_intro
  | |- PosBase.wpf _ _ (className _ ) _ _ => (eapply h_className; [x_s|eassumption|..]); p_intro
  | |- PosBase.wpf _ _ (braces _ ) _ _ => (eapply h_braces; [x_s|eassumption|..]); p_intro
  | |- PosBase.wpf _ _ (capabilityMapping _ _ _) _ _ => (eapply h_capMap; [x_s|eassumption|..]); [p_zz|p_intro]
  | |- PosBase.wpf _ _ (selectorsExpression _ _) _ _ => (eapply h_selectors; [x_s|eassumption|..]); [p_zz|p_intro]
  | |- PosBase.wpf _ _ (collectQuery _ ) _ _ => (eapply h_collectQ; [x_s|eassumption|..]); [p_zz|p_intro]
  | |- PosBase.wpf _ _ (collectExpression _ _) _ _ => (eapply h_collect; [x_s|eassumption|..]); [p_zz|p_intro]
  | |- PosBase.wpf _ _ (optReturnType _ ) _ _ => (eapply h_optRet; [x_s|eassumption|..]); p_intro
  | |- PosBase.wpf _ _ (lambda _ ) _ _ => (eapply h_lambda; [x_s|eassumption|..]); [p_zz|p_intro]
  | |- PosBase.wpf _ _ (caseOption _ ) _ _ => p_here h_caseOption; p_intro
  | |- PosBase.wpf _ _ (caseExpression _ ) _ _ => (eapply h_case; [x_s|eassumption|..]); [p_zz|p_intro]
  | |- PosBase.wpf _ _ (resourceBody _ _) _ _ => (eapply h_resBody; [x_s|eassumption|..]); [p_zz|p_intro]
  | |- PosBase.wpf _ _ (attributeOperation _ ) _ _ => (eapply h_attrOp; [x_s|eassumption|..]); p_intro
  | |- PosBase.wpf _ _ (alias_body _ ) _ _ => (eapply h_alias; [x_s|eassumption|..]); [p_zz|p_intro]
  | |- PosBase.wpf _ _ (typeAliasOrDefinition _ ) _ _ => p_here h_typeAlias; p_intro
  | |- PosBase.wpf _ _ (optParameterList _ ) _ _ => (eapply h_optParams; [x_s|eassumption|..]); p_intro
  | |- PosBase.wpf _ _ (definitionName _) _ _ => eapply h_defName; [x_s|eassumption|p_intro]
  | |- PosBase.wpf _ _ (functionDefinition _ ) _ _ => (eapply h_func; [x_s|eassumption|..]); [p_zz|p_intro]
  | |- PosBase.wpf _ _ (planDefinition _ ) _ _ => (eapply h_plan; [x_s|eassumption|..]); [p_zz|p_intro]
  | |- PosBase.wpf _ _ (hostname _ ) _ _ => p_here h_hostname; p_intro
  | |- PosBase.wpf _ _ (nodeDefinition _ ) _ _ => (eapply h_node; [x_s|eassumption|..]); [p_zz|p_intro]
  | |- PosBase.wpf _ _ (classExpression _ _) _ _ => (eapply h_class; [x_s|eassumption|..]); [p_zz|p_intro]
  | |- PosBase.wpf _ _ (siteDefinition _ ) _ _ => (eapply h_site; [x_s|eassumption|..]); [p_zz|p_intro]
  | |- PosBase.wpf _ _ (resourceDefinition _ _) _ _ => (eapply h_resDef; [x_s|eassumption|..]); [p_zz|p_intro]
  | |- PosBase.wpf _ _ (stepStyle _ ) _ _ => (eapply h_stepStyle; [x_s|eassumption|..]); p_intro
  | |- PosBase.wpf _ _ (stepName _ _) _ _ => (eapply h_stepName; [x_s|eassumption|..]); p_intro
  | |- PosBase.wpf _ _ (stepExpression _ ) _ _ => p_here h_stepExpr; p_intro
  end.
Lemma h_iterator iterName b q c (Q : expr -> ctx -> Prop) : Sq T q c -> rel b q -> qt q <> TEnd -> 
  (forall a q' c', rel true q' -> Sq T q' c' -> Q a c') -> wpf (iterator rec  iterName) c Q.
Proof.
  intros Hs HR HP HQ. p_conj. p_rng. unfold iterator. yy.
Qed.
Ltac p_sub ::= match goal with
  | |- PosBase.wpf _ _ (handleKeyword _ ) _ _ => p_here h_keyword; p_intro
  | |- PosBase.wpf _ _ (argument _ ) _ _ => p_here h_argument; p_intro
  | |- PosBase.wpf _ _ (keyedEntry _ ) _ _ => p_here h_keyed; p_intro
  | |- PosBase.wpf _ _ (selectorEntry _ ) _ _ => p_here h_selEntry; p_intro
  | |- PosBase.wpf _ _ (typeName _ ) _ _ => (eapply h_typeName; [x_s|eassumption|..]); p_intro
  | |- PosBase.wpf _ _ (arrayExpression _ ) _ _ => p_here h_array; p_intro
  | |- PosBase.wpf _ _ (identifier _) _ _ => eapply h_identifier; [x_s|eassumption|p_intro|p_intro; cbn [nope qp qv qt qs] in *]
  | |- PosBase.wpf _ _ (identifierExpr _) _ _ => eapply h_identifierExpr; [x_s|eassumption|p_intro|p_intro; cbn [nope qp qv qt qs] in *]
  | |- PosBase.wpf _ _ (parameterType_body _ ) _ _ => (eapply h_paramTypeBody; [x_s|eassumption|..]); p_intro
  | |- PosBase.wpf _ _ (parameterListOf _ _) _ _ => (eapply h_paramList; [x_s|eassumption|..]); p_intro
  | |- PosBase.wpf _ _ (optParameterType _ ) _ _ => p_here h_optParamType; p_intro
  | |- PosBase.wpf _ _ (parameterName _ ) _ _ => (eapply h_paramName; [x_s|eassumption|..]); p_intro
  | |- PosBase.wpf _ _ (parameter _ ) _ _ => p_here h_parameter; p_intro
  | |- PosBase.wpf _ _ (attributeAlias _ ) _ _ => (eapply h_attrAlias; [x_s|eassumption|..]); p_intro
  | |- PosBase.wpf _ _ (returnParameter _ ) _ _ => p_here h_returnParam; p_intro
  | |- PosBase.wpf _ _ (parameterList _) _ _ => unfold parameterList
  | |- PosBase.wpf _ _ (returnParameters _) _ _ => unfold returnParameters
  | |- PosBase.wpf _ _ (lambdaParameterList _) _ _ => unfold lambdaParameterList
  | |- PosBase.wpf _ _ (stepProperty _ ) _ _ => (eapply h_stepProperty; [x_s|eassumption|..]); p_intro
  | |- PosBase.wpf _ _ (stateAttribute _ ) _ _ => (eapply h_stateAttr; [x_s|eassumption|..]); p_intro
  | |- PosBase.wpf _ _ (produce _ _) _ _ => p_here h_produce; p_intro
  | |- PosBase.wpf _ _ (resource _ ) _ _ => p_here h_resource; p_intro
  | |- PosBase.wpf _ _ (step _ ) _ _ => p_here h_step; p_intro
  | |- PosBase.wpf _ _ (className _ ) _ _ => (eapply h_className; [x_s|eassumption|..]); p_intro
  | |- PosBase.wpf _ _ (braces _ ) _ _ => (eapply h_braces; [x_s|eassumption|..]); p_intro
  | |- PosBase.wpf _ _ (capabilityMapping _ _ _) _ _ => (eapply h_capMap; [x_s|eassumption|..]); [p_zz|p_intro]
  | |- PosBase.wpf _ _ (selectorsExpression _ _) _ _ => (eapply h_selectors; [x_s|eassumption|..]); [p_zz|p_intro]
  | |- PosBase.wpf _ _ (collectQuery _ ) _ _ => (eapply h_collectQ; [x_s|eassumption|..]); [p_zz|p_intro]
  | |- PosBase.wpf _ _ (collectExpression _ _) _ _ => (eapply h_collect; [x_s|eassumption|..]); [p_zz|p_intro]
  | |- PosBase.wpf _ _ (optReturnType _ ) _ _ => (eapply h_optRet; [x_s|eassumption|..]); p_intro
  | |- PosBase.wpf _ _ (lambda _ ) _ _ => (eapply h_lambda; [x_s|eassumption|..]); [p_zz|p_intro]
  | |- PosBase.wpf _ _ (caseOption _ ) _ _ => p_here h_caseOption; p_intro
  | |- PosBase.wpf _ _ (caseExpression _ ) _ _ => (eapply h_case; [x_s|eassumption|..]); [p_zz|p_intro]
  | |- PosBase.wpf _ _ (resourceBody _ _) _ _ => (eapply h_resBody; [x_s|eassumption|..]); [p_zz|p_intro]
  | |- PosBase.wpf _ _ (attributeOperation _ ) _ _ => (eapply h_attrOp; [x_s|eassumption|..]); p_intro
  | |- PosBase.wpf _ _ (alias_body _ ) _ _ => (eapply h_alias; [x_s|eassumption|..]); [p_zz|p_intro]
  | |- PosBase.wpf _ _ (typeAliasOrDefinition _ ) _ _ => p_here h_typeAlias; p_intro
  | |- PosBase.wpf _ _ (optParameterList _ ) _ _ => (eapply h_optParams; [x_s|eassumption|..]); p_intro
  | |- PosBase.wpf _ _ (definitionName _) _ _ => eapply h_defName; [x_s|eassumption|p_intro]
  | |- PosBase.wpf _ _ (functionDefinition _ ) _ _ => (eapply h_func; [x_s|eassumption|..]); [p_zz|p_intro]
  | |- PosBase.wpf _ _ (planDefinition _ ) _ _ => (eapply h_plan; [x_s|eassumption|..]); [p_zz|p_intro]
  | |- PosBase.wpf _ _ (hostname _ ) _ _ => p_here h_hostname; p_intro
  | |- PosBase.wpf _ _ (nodeDefinition _ ) _ _ => (eapply h_node; [x_s|eassumption|..]); [p_zz|p_intro]
  | |- PosBase.wpf _ _ (classExpression _ _) _ _ => (eapply h_class; [x_s|eassumption|..]); [p_zz|p_intro]
  | |- PosBase.wpf _ _ (siteDefinition _ ) _ _ => (eapply h_site; [x_s|eassumption|..]); [p_zz|p_intro]
  | |- PosBase.wpf _ _ (resourceDefinition _ _) _ _ => (eapply h_resDef; [x_s|eassumption|..]); [p_zz|p_intro]
  | |- PosBase.wpf _ _ (stepStyle _ ) _ _ => (eapply h_stepStyle; [x_s|eassumption|..]); p_intro
  | |- PosBase.wpf _ _ (stepName _ _) _ _ => (eapply h_stepName; [x_s|eassumption|..]); p_intro
  | |- PosBase.wpf _ _ (stepExpression _ ) _ _ => p_here h_stepExpr; p_intro
  | |- PosBase.wpf _ _ (iterator _ _) _ _ => (eapply h_iterator; [x_s|eassumption|..]); [p_zz|p_intro]
  end.
Lemma ge_white q st v' : rel false q -> qp q <= L + 1 -> 0 <= st <= L + 1 -> v' = qv q \/ v' = -1 -> ky T (qp q) (qv q) <= ky T st v' ->
  rel false (mkst st v' (qt q) (qs q)).
Proof.
  intros R H1 H2 H3 K. pose proof (rel_ok R) as (O1 & O2 & O3). eapply rel_ge; [exact O0|exact R| |].
  - unfold okq, rngs. cbn [qp qv qt qs]. lia.
  - unfold geq, vq, aq, kq, rq. cbn [qp qv qt qs]. split; [lia|]. split; [unfold vnext; lia|]. left. destruct H3; subst v'; [lia|]. now apply ky_none.
Qed.
Lemma b_parse e single c (Q : expr -> ctx -> Prop) : Sq T q0 c -> 36 < r0 -> 
  (forall a q' c', good T a -> rel false q' -> Sq T q' c' -> Q a c') -> wpf (parse_body rec  e single) c Q.
Proof.
  intros Hs HB HQ. pose proof (rel_refl O0) as HR. p_conj. p_rng. unfold parse_body. x. eapply r_skipWhite; [x_s|zz|zz|]. intros r st w v' S1 S2 S3 S4 c1 Hs1. destruct (S4 ltac:(zz)) as [S5 S6]. cbv beta iota. clear Hs.
  x. assert (HR': rel false (mkst st v' (qt q0) (qs q0))) by (eapply ge_white; zz || eauto). clear HR.
  match goal with K : S_ _ _ _ _ _ _ ?d |- PosBase.wpf _ _ _ ?d _ => change (Sq T (mkst st v' (qt q0) (qs q0)) d) in K end.
  yy.
Qed.
Lemma h_syntactic  b q c (Q : expr -> ctx -> Prop) : Sq T q c -> rel b q -> (b = false -> 34 < r0) -> 
  (forall a q' c', good T a -> rel true q' -> Sq T q' c' -> Q a c') -> wpf (syntacticStatement rec ) c Q.
Proof.
  intros Hs HR HB HQ. p_conj. p_rng. unfold syntacticStatement. yy.
Qed.
Ltac p_sub ::= match goal with
  | |- PosBase.wpf _ _ (handleKeyword _ ) _ _ => p_here h_keyword; p_intro
  | |- PosBase.wpf _ _ (argument _ ) _ _ => p_here h_argument; p_intro
  | |- PosBase.wpf _ _ (keyedEntry _ ) _ _ => p_here h_keyed; p_intro
  | |- PosBase.wpf _ _ (selectorEntry _ ) _ _ => p_here h_selEntry; p_intro
  | |- PosBase.wpf _ _ (typeName _ ) _ _ => (eapply h_typeName; [x_s|eassumption|..]); p_intro
  | |- PosBase.wpf _ _ (arrayExpression _ ) _ _ => p_here h_array; p_intro
  | |- PosBase.wpf _ _ (identifier _) _ _ => eapply h_identifier; [x_s|eassumption|p_intro|p_intro; cbn [nope qp qv qt qs] in *]
  | |- PosBase.wpf _ _ (identifierExpr _) _ _ => eapply h_identifierExpr; [x_s|eassumption|p_intro|p_intro; cbn [nope qp qv qt qs] in *]
  | |- PosBase.wpf _ _ (parameterType_body _ ) _ _ => (eapply h_paramTypeBody; [x_s|eassumption|..]); p_intro
  | |- PosBase.wpf _ _ (parameterListOf _ _) _ _ => (eapply h_paramList; [x_s|eassumption|..]); p_intro
  | |- PosBase.wpf _ _ (optParameterType _ ) _ _ => p_here h_optParamType; p_intro
  | |- PosBase.wpf _ _ (parameterName _ ) _ _ => (eapply h_paramName; [x_s|eassumption|..]); p_intro
  | |- PosBase.wpf _ _ (parameter _ ) _ _ => p_here h_parameter; p_intro
  | |- PosBase.wpf _ _ (attributeAlias _ ) _ _ => (eapply h_attrAlias; [x_s|eassumption|..]); p_intro
  | |- PosBase.wpf _ _ (returnParameter _ ) _ _ => p_here h_returnParam; p_intro
  | |- PosBase.wpf _ _ (parameterList _) _ _ => unfold parameterList
  | |- PosBase.wpf _ _ (returnParameters _) _ _ => unfold returnParameters
  | |- PosBase.wpf _ _ (lambdaParameterList _) _ _ => unfold lambdaParameterList
  | |- PosBase.wpf _ _ (stepProperty _ ) _ _ => (eapply h_stepProperty; [x_s|eassumption|..]); p_intro
  | |- PosBase.wpf _ _ (stateAttribute _ ) _ _ => (eapply h_stateAttr; [x_s|eassumption|..]); p_intro
  | |- PosBase.wpf _ _ (produce _ _) _ _ => p_here h_produce; p_intro
  | |- PosBase.wpf _ _ (resource _ ) _ _ => p_here h_resource; p_intro
  | |- PosBase.wpf _ _ (step _ ) _ _ => p_here h_step; p_intro
  | |- PosBase.wpf _ _ (className _ ) _ _ => (eapply h_className; [x_s|eassumption|..]); p_intro
  | |- PosBase.wpf _ _ (braces _ ) _ _ => (eapply h_braces; [x_s|eassumption|..]); p_intro
  | |- PosBase.wpf _ _ (capabilityMapping _ _ _) _ _ => (eapply h_capMap; [x_s|eassumption|..]); [p_zz|p_intro]
  | |- PosBase.wpf _ _ (selectorsExpression _ _) _ _ => (eapply h_selectors; [x_s|eassumption|..]); [p_zz|p_intro]
  | |- PosBase.wpf _ _ (collectQuery _ ) _ _ => (eapply h_collectQ; [x_s|eassumption|..]); [p_zz|p_intro]
  | |- PosBase.wpf _ _ (collectExpression _ _) _ _ => (eapply h_collect; [x_s|eassumption|..]); [p_zz|p_intro]
  | |- PosBase.wpf _ _ (optReturnType _ ) _ _ => (eapply h_optRet; [x_s|eassumption|..]); p_intro
  | |- PosBase.wpf _ _ (lambda _ ) _ _ => (eapply h_lambda; [x_s|eassumption|..]); [p_zz|p_intro]
  | |- PosBase.wpf _ _ (caseOption _ ) _ _ => p_here h_caseOption; p_intro
  | |- PosBase.wpf _ _ (caseExpression _ ) _ _ => (eapply h_case; [x_s|eassumption|..]); [p_zz|p_intro]
  | |- PosBase.wpf _ _ (resourceBody _ _) _ _ => (eapply h_resBody; [x_s|eassumption|..]); [p_zz|p_intro]
  | |- PosBase.wpf _ _ (attributeOperation _ ) _ _ => (eapply h_attrOp; [x_s|eassumption|..]); p_intro
  | |- PosBase.wpf _ _ (alias_body _ ) _ _ => (eapply h_alias; [x_s|eassumption|..]); [p_zz|p_intro]
  | |- PosBase.wpf _ _ (typeAliasOrDefinition _ ) _ _ => p_here h_typeAlias; p_intro
  | |- PosBase.wpf _ _ (optParameterList _ ) _ _ => (eapply h_optParams; [x_s|eassumption|..]); p_intro
  | |- PosBase.wpf _ _ (definitionName _) _ _ => eapply h_defName; [x_s|eassumption|p_intro]
  | |- PosBase.wpf _ _ (functionDefinition _ ) _ _ => (eapply h_func; [x_s|eassumption|..]); [p_zz|p_intro]
  | |- PosBase.wpf _ _ (planDefinition _ ) _ _ => (eapply h_plan; [x_s|eassumption|..]); [p_zz|p_intro]
  | |- PosBase.wpf _ _ (hostname _ ) _ _ => p_here h_hostname; p_intro
  | |- PosBase.wpf _ _ (nodeDefinition _ ) _ _ => (eapply h_node; [x_s|eassumption|..]); [p_zz|p_intro]
  | |- PosBase.wpf _ _ (classExpression _ _) _ _ => (eapply h_class; [x_s|eassumption|..]); [p_zz|p_intro]
  | |- PosBase.wpf _ _ (siteDefinition _ ) _ _ => (eapply h_site; [x_s|eassumption|..]); [p_zz|p_intro]
  | |- PosBase.wpf _ _ (resourceDefinition _ _) _ _ => (eapply h_resDef; [x_s|eassumption|..]); [p_zz|p_intro]
  | |- PosBase.wpf _ _ (stepStyle _ ) _ _ => (eapply h_stepStyle; [x_s|eassumption|..]); p_intro
  | |- PosBase.wpf _ _ (stepName _ _) _ _ => (eapply h_stepName; [x_s|eassumption|..]); p_intro
  | |- PosBase.wpf _ _ (stepExpression _ ) _ _ => p_here h_stepExpr; p_intro
  | |- PosBase.wpf _ _ (iterator _ _) _ _ => (eapply h_iterator; [x_s|eassumption|..]); [p_zz|p_intro]
  | |- PosBase.wpf _ _ (syntacticStatement _ ) _ _ => p_here h_syntactic; p_intro
  end.
Lemma b_statements e acc c (Q : list expr -> ctx -> Prop) : Sq T q0 c -> 34 < r0 -> 
  (forall a q' c', rel false q' -> Sq T q' c' -> Q a c') -> wpf (statements_body rec  e acc) c Q.
Proof.
  intros Hs HB HQ. pose proof (rel_refl O0) as HR. p_conj. p_rng. unfold statements_body. yy.
Qed.
Lemma b_commas acc c (Q : list expr -> ctx -> Prop) : Sq T q0 c -> 
  (forall a q' c', rel false q' -> Sq T q' c' -> Q a c') -> wpf (commas_body rec  acc) c Q.
Proof.
  intros Hs HQ. pose proof (rel_refl O0) as HR. p_conj. p_rng. unfold commas_body. yy.
Qed.
Lemma b_expressions e p acc c (Q : list expr -> ctx -> Prop) : Sq T q0 c -> 34 < r0 -> 
  (forall a q' c', qt q' = e -> rel false q' -> Sq T q' c' -> Q a c') -> wpf (expressions_body rec  e p acc) c Q.
Proof.
  intros Hs HB HQ. pose proof (rel_refl O0) as HR. p_conj. p_rng. unfold expressions_body. yy.
Qed.
Lemma b_relationship  c (Q : expr -> ctx -> Prop) : Sq T q0 c -> 32 < r0 -> 
  (forall a q' c', good T a -> rel true q' -> Sq T q' c' -> Q a c') -> wpf (relationship_body rec ) c Q.
Proof.
  intros Hs HB HQ. pose proof (rel_refl O0) as HR. p_conj. p_rng. unfold relationship_body. yy.
Qed.
Lemma b_relLoop e c (Q : expr -> ctx -> Prop) : Sq T q0 c -> good T e -> 
  (forall a q' c', good T a -> rel false q' -> Sq T q' c' -> Q a c') -> wpf (relLoop_body rec  e) c Q.
Proof.
  intros Hs HP HQ. pose proof (rel_refl O0) as HR. p_conj. p_rng. unfold relLoop_body. yy.
Qed.
Lemma b_assignment  c (Q : expr -> ctx -> Prop) : Sq T q0 c -> 30 < r0 -> 
  (forall a q' c', good T a -> rel true q' -> Sq T q' c' -> Q a c') -> wpf (assignment_body rec ) c Q.
Proof.
  intros Hs HB HQ. pose proof (rel_refl O0) as HR. p_conj. p_rng. unfold assignment_body. yy.
Qed.
Lemma b_assignLoop e c (Q : expr -> ctx -> Prop) : Sq T q0 c -> good T e -> 
  (forall a q' c', good T a -> rel false q' -> Sq T q' c' -> Q a c') -> wpf (assignLoop_body rec  e) c Q.
Proof.
  intros Hs HP HQ. pose proof (rel_refl O0) as HR. p_conj. p_rng. unfold assignLoop_body. yy.
Qed.
Lemma b_expression  c (Q : expr -> ctx -> Prop) : Sq T q0 c -> 28 < r0 -> 
  (forall a q' c', good T a -> (qname a = true -> aq T q0 < 3 * rq T q' + 1) -> rel true q' -> Sq T q' c' -> Q a c') -> wpf (expression_body rec ) c Q.
Proof.
  intros Hs HB HQ. pose proof (rel_refl O0) as HR. p_conj. p_rng. unfold expression_body. yy.
Qed.
Lemma b_selectLoop e c (Q : expr -> ctx -> Prop) : Sq T q0 c -> 
  (forall a q' c', (good T e -> good T a) -> (qname a = true -> qname e = true /\ q' = q0) -> rel false q' -> Sq T q' c' -> Q a c') -> wpf (selectLoop_body rec  e) c Q.
Proof.
  intros Hs HQ. pose proof (rel_refl O0) as HR. p_conj. p_rng. unfold selectLoop_body. yy.
Qed.
Lemma b_level l c (Q : expr -> ctx -> Prop) : Sq T q0 c -> level_rank l - 1 < r0 -> 
  (forall a q' c', good T a -> (qname a = true -> aq T q0 < 3 * rq T q' + 1) -> rel true q' -> Sq T q' c' -> Q a c') -> wpf (level_body rec  l) c Q.
Proof.
  intros Hs HB HQ. pose proof (rel_refl O0) as HR. p_conj. p_rng. unfold level_body. unfold level_operand, next_level. destruct l; cbn [level_rank] in HB; yy.
Qed.
Lemma b_levelLoop l e c (Q : expr -> ctx -> Prop) : Sq T q0 c -> 
  (forall a q' c', (good T e -> good T a) -> (qname a = true -> qname e = true /\ q' = q0) -> rel false q' -> Sq T q' c' -> Q a c') -> wpf (levelLoop_body rec  l e) c Q.
Proof.
  intros Hs HQ. pose proof (rel_refl O0) as HR. p_conj. p_rng. unfold levelLoop_body. x. destruct (level_op l (qt q0)) as [k|] eqn:EK; [|x; p_fin].
  assert (HE: qt q0 <> TEnd) by (intros E; rewrite E in EK; destruct l; discriminate).
  assert (HH: forall c0, Sq T q0 c0 -> forall op, wpf (rec FNextToken;; ' r <- level_operand rec l;; ' p <- span (byteOffset e);; rec (FLevelLoop l (EBin p k op e r))) c0 Q).
  { clear c Hs. intros c Hs op. yy. unfold level_operand. destruct (next_level l); yy. }
  unfold level_op_text. destruct k; apply wpf_bind; first [apply wpf_ret | eapply r_tokenString; [x_s|intros]]; cbv beta; apply HH; assumption.
Qed.
Lemma offset_set p e : byteOffset (set_pos p e) = p_off p.
Proof. now destruct e. Qed.
Lemma qname_set p e : qname (set_pos p e) = qname e.
Proof. now destruct e. Qed.
Lemma offset_lhs e args l p : match e with EBin _ KNamedAccess _ _ _ => True | _ => False end -> byteOffset (convertLhsToCall e args l p) = p_off p /\ qname (convertLhsToCall e args l p) = false.
Proof. destruct e; try easy. destruct k; easy. Qed.

Lemma b_unary  c (Q : expr -> ctx -> Prop) : Sq T q0 c -> 16 < r0 -> 
  (forall a q' c', good T a -> (qname a = true -> aq T q0 < 3 * rq T q' + 1) -> rel true q' -> Sq T q' c' -> Q a c') -> wpf (unary_body rec ) c Q.
Proof.
  intros Hs HB HQ. pose proof (rel_refl O0) as HR. p_conj. p_rng. unfold unary_body. 
  assert (HU: forall m q1 c1 op, Sq T q1 c1 -> rel true q1 -> (op = rec FPrimary \/ op = rec FUnary) -> wpf (' e <- op ;; ' p <- span (qs q0) ;; ret (EUn p m e)) c1 Q).
  { clear c Hs. intros m q1 c1 op Hs R1 [-> | ->]; p_rng; yy. }
  assert (HN: forall q1 c1, Sq T q1 c1 -> rel true q1 -> wpf (signed_number rec (qs q0)) c1 Q).
  { clear c Hs. intros q1 c1 Hs R1. p_rng. unfold signed_number. yy.
    match goal with |- Q (set_pos ?p ?a) ?c => apply (HQ _ q' c); [unfold good; rewrite offset_set; zz|rewrite qname_set; assumption|assumption|assumption] end. }
  assert (HD: wpf (rec FPrimary) c Q) by yy. unfold unary_node.
  x. destruct (qt q0) eqn:Et; try exact HD; rewrite <- Et in *; yy.
  all: first [eapply HU; [eassumption|eassumption|auto] | eapply HN; eassumption | idtac].

Qed.
Lemma b_primary  c (Q : expr -> ctx -> Prop) : Sq T q0 c -> 14 < r0 -> 
  (forall a q' c', good T a -> (qname a = true -> aq T q0 < 3 * rq T q' + 1) -> rel true q' -> Sq T q' c' -> Q a c') -> wpf (primary_body rec ) c Q.
Proof.
  intros Hs HB HQ. pose proof (rel_refl O0) as HR. p_conj. p_rng. unfold primary_body. yy.
Qed.
Lemma b_primaryLoop e c (Q : expr -> ctx -> Prop) : Sq T q0 c -> 10 < r0 -> 
  (forall a q' c', (good T e -> good T a) -> (qname a = true -> qname e = true /\ q' = q0) -> rel false q' -> Sq T q' c' -> Q a c') -> wpf (primaryLoop_body rec  e) c Q.
Proof.
  intros Hs HB HQ. pose proof (rel_refl O0) as HR. p_conj. p_rng. unfold primaryLoop_body. 
  assert (HD: wpf (match e with EBin p KNamedAccess _ _ _ => ret (convertLhsToCall e [] None p) | _ => ret e end) c Q).
  { assert (D0: wpf (ret e) c Q) by yy. destruct e; try exact D0. destruct k; try exact D0. x. p_fin. }
  x. destruct (qt q0) eqn:Et; try exact HD; rewrite <- Et in *; clear HD; yy.
  all: match goal with H : context [if ?b then _ else _] |- _ => destruct b end; p_fin.
Qed.
Lemma b_call e c (Q : expr -> ctx -> Prop) : Sq T q0 c -> qt q0 <> TEnd -> 
  (forall a q' c', (good T e -> good T a) -> qname a = false -> rel true q' -> Sq T q' c' -> Q a c') -> wpf (call_body rec  e) c Q.
Proof.
  intros Hs HP HQ. pose proof (rel_refl O0) as HR. p_conj. p_rng. unfold call_body. 
  assert (HD: forall args block l q1 c1, rel true q1 -> Sq T q1 c1 ->
    wpf (match e with EBin _ KNamedAccess _ _ _ => ret (convertLhsToCall e args block (mkpos (byteOffset e) l)) | _ => ret (ECallNamed (mkpos (byteOffset e) l) true e args block) end) c1 Q).
  { intros args block l q1 c1 R1 S1. assert (D0: wpf (ret (ECallNamed (mkpos (byteOffset e) l) true e args block)) c1 Q) by (x; apply (HQ _ q1 c1); auto).
    destruct e; try exact D0. destruct k; try exact D0. x. apply (HQ _ q1 c1); auto. }
  cbv zeta. x. destruct (negb (tok_eqb (qt q0) TPipe)) eqn:Ep; repeat first [x1 | progress (cbv beta iota zeta)].
  all: match goal with |- context [if ?b then _ else _] => destruct b eqn:? end; repeat first [x1 | progress (cbv beta iota zeta)].
  all: try (eapply HD; eassumption).
  all: discriminate Ep.
Qed.
Lemma b_if u c (Q : expr -> ctx -> Prop) : Sq T q0 c -> qt q0 <> TEnd -> 
  (forall a q' c', good T a -> qname a = false -> rel true q' -> Sq T q' c' -> Q a c') -> wpf (if_body rec  u) c Q.
Proof.
  intros Hs HP HQ. pose proof (rel_refl O0) as HR. p_conj. p_rng. unfold if_body. yy.
Qed.
Lemma b_caseOptions acc c (Q : list expr -> ctx -> Prop) : Sq T q0 c -> 36 < r0 -> 
  (forall a q' c', rel false q' -> Sq T q' c' -> Q a c') -> wpf (caseOptions_body rec  acc) c Q.
Proof.
  intros Hs HB HQ. pose proof (rel_refl O0) as HR. p_conj. p_rng. unfold caseOptions_body. yy.
Qed.
Lemma b_bodies title acc c (Q : list expr -> ctx -> Prop) : Sq T q0 c -> match title with Some e => good T e | None => True end -> 
  (forall a q' c', rel false q' -> Sq T q' c' -> Q a c') -> wpf (bodies_body rec  title acc) c Q.
Proof.
  intros Hs HP HQ. pose proof (rel_refl O0) as HR. p_conj. p_rng. unfold bodies_body. yy.
Qed.
Lemma b_attrOps acc c (Q : list expr -> ctx -> Prop) : Sq T q0 c -> 
  (forall a q' c', rel false q' -> Sq T q' c' -> Q a c') -> wpf (attrOps_body rec  acc) c Q.
Proof.
  intros Hs HQ. pose proof (rel_refl O0) as HR. p_conj. p_rng. unfold attrOps_body. yy.
Qed.
Lemma b_hostnames acc c (Q : list expr -> ctx -> Prop) : Sq T q0 c -> 5 < r0 -> 
  (forall a q' c', rel false q' -> Sq T q' c' -> Q a c') -> wpf (hostnames_body rec  acc) c Q.
Proof.
  intros Hs HB HQ. pose proof (rel_refl O0) as HR. p_conj. p_rng. unfold hostnames_body. yy.
Qed.
Lemma b_dotted st names c (Q : expr -> ctx -> Prop) : Sq T q0 c -> 0 <= st <= L + 1 -> 
  (forall a q' c', good T a -> rel true q' -> Sq T q' c' -> Q a c') -> wpf (dotted_body rec  st names) c Q.
Proof.
  intros Hs HP HQ. pose proof (rel_refl O0) as HR. p_conj. p_rng. unfold dotted_body. yy.
Qed.
Lemma b_activities acc c (Q : list expr -> ctx -> Prop) : Sq T q0 c -> 5 < r0 -> 
  (forall a q' c', rel false q' -> Sq T q' c' -> Q a c') -> wpf (activities_body rec  acc) c Q.
Proof.
  intros Hs HB HQ. pose proof (rel_refl O0) as HR. p_conj. p_rng. unfold activities_body. yy.
Qed.
Lemma b_stepDecl start st name atTop c (Q : expr -> ctx -> Prop) : Sq T q0 c -> 0 <= start <= L + 1 -> 
  (forall a q' c', good T a -> rel true q' -> Sq T q' c' -> Q a c') -> wpf (stepDecl_body rec  start st name atTop) c Q.
Proof.
  intros Hs HP HQ. pose proof (rel_refl O0) as HR. p_conj. p_rng. unfold stepDecl_body. yy.
Qed.
Lemma b_eppLoop acc c (Q : expr -> ctx -> Prop) : Sq T q0 c -> 30 < r0 -> 
  (forall a q' c', good T a -> rel false q' -> Sq T q' c' -> Q a c') -> wpf (eppLoop_body rec  acc) c Q.
Proof.
  intros Hs HB HQ. pose proof (rel_refl O0) as HR. p_conj. p_rng. unfold eppLoop_body. pose proof (@LT_nonneg T). unfold asEppLambda, eppLambda. yy.
Qed.
Lemma b_resource y e form c (Q : expr -> ctx -> Prop) : Sq T q0 c -> 0 <= y <= L + 1 /\ good T e /\ qt q0 <> TEnd -> 
  (forall a q' c', good T a -> qname a = false -> rel true q' -> Sq T q' c' -> Q a c') -> wpf (resourceExpr_body rec  y e form) c Q.
Proof.
  intros Hs HP HQ. pose proof (rel_refl O0) as HR. p_conj. p_rng. unfold resourceExpr_body. 
  assert (HBT: forall q2 (Q' : unit -> ctx -> Prop), rel true q2 -> forall c2, S_ T true (qp q0) (qv q2) (qt q2) (qs q2) c2 ->
            (forall q3 c3, rel true q3 -> Sq T q3 c3 -> Q' tt c3) -> wpf (rec FNextToken) c2 Q').
  { clear c Hs. intros q2 Q' R2 c2 Hs2 HQ'. pose proof (rel_ok R2) as (O21 & O22 & O23). pose proof (rel_true R2) as (M1 & M2 & M3).
    assert (K0: kq T q0 <= ky T (qp q0) (qv q2)) by (apply vn_reset with (p := qp q0); [lia|lia|lia|exact M2]).
    assert (RR: rngs T (qp q0) (qv q2) (qs q2)) by (unfold rngs; lia).
    pose proof (weight_pos ltac:(eassumption) : 1 <= weight (qt q0)) as W.
    eapply r_nt_raw; [exact Hrec|exact R0|exact Hs2|exact RR| |].
    - unfold aq. pose proof (weight_range (qt q0)). lia.
    - intros q3 O3 K1 K2 K3 K4 c3 Hs3. eapply HQ'; [|exact Hs3].
      assert (V: vq q0 q3) by (unfold vq; eapply (@vn_trans T (qp q0) (qv q0) (qp q0) (qv q2)); [lia|lia|exact K0|exact M2|exact K3]).
      eapply rel_more; [exact O0|exact HR|exact O3|]. unfold moreq. split; [|split; [exact V|lia]].
      unfold aq. destruct (tok_eqb (qt q3) TEnd) eqn:E.
      + apply tok_eqb_eq in E. rewrite E. change (weight TEnd) with 0. lia.
      + pose proof (weight_range (qt q3)). assert (N: qt q3 <> TEnd) by (intros K; rewrite K in E; discriminate). specialize (K2 N). lia. }
  repeat match goal with |- _ => progress yy | |- PosBase.wpf _ _ (rec FNextToken) _ _ => eapply HBT; [eassumption|eassumption|p_intro] end.
Qed.
Lemma b_atom  c (Q : expr -> ctx -> Prop) : Sq T q0 c -> 10 < r0 -> 
  (forall a q' c', good T a -> (qname a = true -> aq T q0 < 3 * rq T q' + 1) -> rel true q' -> Sq T q' c' -> Q a c') -> wpf (atom_body rec ) c Q.
Proof.
  intros Hs HB HQ. pose proof (rel_refl O0) as HR. p_conj. p_rng. unfold atom_body. 
  assert (HV: forall q', rel true q' -> weight (qt q0) = 2 -> aq T q0 < 3 * rq T q' + 1).
  { intros q' R' W. pose proof (rel_true R') as (M1 & M2 & M3). unfold aq. lia. }
  unfold leaf. yy.
  all: match goal with S : S_ _ true (qp ?q') _ _ _ ?c |- ?QQ _ ?c => apply (HQ _ q' c); [zz|intros _; apply HV; [assumption|match goal with E : qt _ = _ |- _ => rewrite E; reflexivity end]|assumption|assumption] end.
Qed.
End Helpers.
