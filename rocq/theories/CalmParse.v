(** * CalmParse: what the parser does with a token, the token allows *)
From Verif Require Import Base Float Tokens Ast Ctx Locator Lexer Parser Wp CalmFrame CalmBase CalmLex.

(** ** Pure transformations *)
Lemma spine_set_pos q e : spine (set_pos q e) = spine e.
Proof. destruct e; reflexivity. Qed.
Lemma spine_stmt e : spine e = true -> stmt e = true.
Proof. destruct e; auto. intros H. discriminate H. Qed.
Lemma stmt_rval b e : stmt e = true -> stmt (set_rval b e) = true.
Proof. destruct e; auto. Qed.
Lemma lhs_call_spine ne : forall args l p, spine ne = true -> (match ne with EBin _ KNamedAccess _ _ _ => true | _ => false end) = true ->
  spine (convertLhsToCall ne args l p) = true.
Proof.
  induction ne as [e IH] using expr_children_ind. intros args l p H N. destruct e; try discriminate. destruct k; try discriminate.
  cbn [convertLhsToCall spine] in *. destruct e1; try assumption. destruct k; try assumption. apply IH; [left; reflexivity|assumption|reflexivity].
Qed.
Lemma transform_stmt : forall n es memo, (List.length es <= n)%nat -> stmt memo = true -> forallb stmt es = true -> forallb stmt (fst (transform_from memo es)) = true.
Proof.
  assert (R : forall b e, stmt e = true -> stmt (set_rval b e) = true) by (intros; now apply stmt_rval).
  induction n as [|n IH]; intros es memo Hn Hm Hes.
  - destruct es; [|cbn in Hn; lia]. cbn [transform_from fst forallb]. now rewrite R.
  - destruct es as [|e es]; [cbn [transform_from fst forallb]; now rewrite R|].
    cbn [transform_from]. cbn [forallb] in Hes. apply andb_prop in Hes as [He Hes]. cbn [List.length] in Hn.
    assert (D : forall x, stmt x = true -> forallb stmt (fst (let (r, b) := transform_from e es in (x :: r, b))) = true).
    { intros x Hx. specialize (IH es e ltac:(lia) He Hes). destruct (transform_from e es). cbn [fst forallb] in *. now rewrite Hx. }
    destruct memo; try (apply D; apply R; exact Hm).
    destruct (isStatementCall name); [|apply D; exact Hm].
    destruct es as [|m es]; [reflexivity|]. cbn [forallb] in Hes. apply andb_prop in Hes as [Hm' Hes].
    specialize (IH es m ltac:(cbn [List.length] in Hn; lia) Hm' Hes). destruct (transform_from m es). exact IH.
Qed.
Lemma softly_check_commas es : forallb stmt es = true -> softly (check_commas es).
Proof.
  induction es as [|e es IH]; cbn [check_commas forallb]; [intros _; softly_tac|]. intros H. apply andb_prop in H as [H1 H2]. destruct e; try (apply IH; exact H2).
  destruct elements; [discriminate|]. softly_tac; apply softly_of_sum; intros ?; first [apply lineForOffset_soft|apply posOnLine_soft].
Qed.
Lemma stmt_snoc acc x : forallb stmt acc = true -> stmt x = true -> forallb stmt (acc ++ [x]) = true.
Proof. intros H1 H2. rewrite forallb_app, H1. cbn. now rewrite H2. Qed.

Section Rec.
Variable T : str.
Variable o : opts.
Variable rec : forall A, fn A -> M A.
Hypothesis REC : calms T o rec.
Notation Sc := (Sc T o). Notation Ec := (Ec T o). Notation post := (post T o). Notation vg := (vg T).
Ltac tk := repeat match goal with
  | H : tok_eqb _ _ = true |- _ => apply tok_eqb_true in H
  | H : ?t = _ |- _ => is_var t; match type of t with tok => subst t end
  end.
Ltac c_sub ::= fail.
Ltac k := c_go; try (c_fin; [assumption|first [exact I|assumption|reflexivity|idtac]]).
Ltac tt_ := first [exact I | assumption | reflexivity | discriminate | idtac].

Lemma transformCalls_ok ns t v c es : Sc ns t v c -> vg t v -> forallb stmt es = true ->
  wp Ec (transformCalls es) c (post true ns (fun _ => True)).
Proof.
  intros HS HG H. unfold transformCalls. destruct es as [|m es]; [k|].
  cbn [forallb] in H. apply andb_prop in H as [H1 H2]. pose proof (@transform_stmt _ es m (Nat.le_refl _) H1 H2) as K.
  destruct (transform_from m es) as [r b]. cbn [fst] in K. c1. destruct b; [|k].
  eapply c_soft; [apply softly_check_commas, K|eassumption|]. c_clr. intros. k.
Qed.
Lemma statement_ok ns t v c : Sc ns t v c -> vg t v -> wp Ec (syntacticStatement rec) c (post true ns (fun e => stmt e = true)).
Proof.
  intros HS HG. unfold syntacticStatement. k.
  destruct a0 as [|x [|y l]]; cbn [List.length] in *; [exfalso; lia| |]; k.
  now apply spine_stmt.
Qed.
Ltac c_sub ::=
  match goal with
  | |- wp _ (transformCalls _) _ _ => c_call transformCalls_ok
  | |- wp _ (syntacticStatement _) _ _ => c_call statement_ok
  end.
Lemma parse_ok ns t v c e single : Sc ns t v c -> vg t v -> wp Ec (parse_body rec e single) c (post true ns (fun e => spine e = true)).
Proof. intros HS HG. unfold parse_body. k; tt_. Qed.
Lemma commas_ok ns t v c acc : Sc ns t v c -> vg t v ->
  wp Ec (commas_body rec acc) c (post true ns (fun l => (List.length acc <= List.length l)%nat)).
Proof. intros HS HG. unfold commas_body. k; rewrite ?app_length in *; cbn [List.length] in *; lia. Qed.
Lemma statements_ok ns t v c e acc : Sc ns t v c -> vg t v -> forallb stmt acc = true ->
  wp Ec (statements_body rec e acc) c (post true ns (fun l => forallb stmt l = true)).
Proof. intros HS HG H. unfold statements_body. k; now apply stmt_snoc. Qed.
Lemma handleKeyword_ok ns t v c : Sc ns t v c -> vg t v -> wp Ec (handleKeyword rec) c (post true ns (fun e => spine e = true)).
Proof. intros HS HG. unfold handleKeyword. k; tt_. Qed.
Ltac c_sub ::=
  match goal with
  | |- wp _ (transformCalls _) _ _ => c_call transformCalls_ok
  | |- wp _ (syntacticStatement _) _ _ => c_call statement_ok
  | |- wp _ (handleKeyword _) _ _ => c_call handleKeyword_ok
  end.
Lemma argument_ok ns t v c : Sc ns t v c -> vg t v -> wp Ec (argument rec) c (post true ns (fun _ => True)).
Proof. intros HS HG. unfold argument. k. Qed.
Lemma keyedEntry_ok ns t v c : Sc ns t v c -> vg t v -> wp Ec (keyedEntry rec) c (post true ns (fun _ => True)).
Proof. intros HS HG. unfold keyedEntry. k. Qed.
Lemma selectorEntry_ok ns t v c : Sc ns t v c -> vg t v -> wp Ec (selectorEntry rec) c (post true ns (fun _ => True)).
Proof. intros HS HG. unfold selectorEntry. k. Qed.
Lemma identifier_ok ns t v c : Sc ns t v c -> vg t v -> wp Ec (identifier rec) c (post true ns (fun _ => True)).
Proof. intros HS HG. unfold identifier. k; tk; left; reflexivity. Qed.
Lemma identifierExpr_ok ns t v c : Sc ns t v c -> vg t v -> wp Ec (identifierExpr rec) c (post true ns (fun _ => True)).
Proof. intros HS HG. unfold identifierExpr. k; tk; left; reflexivity. Qed.
Lemma typeName_ok ns t v c : Sc ns t v c -> vg t v -> wp Ec (typeName rec) c (post true ns (fun x => match x with Some e => exists p s, e = EQRef p s | None => True end)).
Proof. intros HS HG. unfold typeName. k; tk; try (left; reflexivity); eauto. Qed.
Lemma array_ok ns t v c : Sc ns t v c -> vg t v -> wp Ec (arrayExpression rec) c (post true ns (fun _ => True)).
Proof. intros HS HG. unfold arrayExpression. k; tt_. Qed.
Ltac sub1 := match goal with
  | |- wp _ (transformCalls _) _ _ => c_call transformCalls_ok
  | |- wp _ (syntacticStatement _) _ _ => c_call statement_ok
  | |- wp _ (handleKeyword _) _ _ => c_call handleKeyword_ok
  | |- wp _ (argument _) _ _ => c_call argument_ok
  | |- wp _ (keyedEntry _) _ _ => c_call keyedEntry_ok
  | |- wp _ (selectorEntry _) _ _ => c_call selectorEntry_ok
  | |- wp _ (identifier _) _ _ => c_call identifier_ok
  | |- wp _ (identifierExpr _) _ _ => c_call identifierExpr_ok
  | |- wp _ (typeName _) _ _ => c_call typeName_ok
  | |- wp _ (arrayExpression _) _ _ => c_call array_ok
  end.
Ltac c_sub ::= sub1.
Lemma parameterType_ok ns t v c : Sc ns t v c -> vg t v -> wp Ec (parameterType_body rec) c (post true ns (fun e => spine e = true)).
Proof. intros HS HG. unfold parameterType_body. k; tt_. destruct HR as (? & ? & ->). reflexivity. Qed.
Lemma parameterListOf_ok ns t v c p : p <> PStepProperty -> Sc ns t v c -> vg t v -> wp Ec (parameterListOf rec p) c (post true ns (fun _ => True)).
Proof. intros N HS HG. unfold parameterListOf. k; congruence. Qed.
Lemma parameterList_ok ns t v c : Sc ns t v c -> vg t v -> wp Ec (parameterList rec) c (post true ns (fun _ => True)).
Proof. intros HS HG. eapply parameterListOf_ok; [discriminate|eassumption..]. Qed.
Lemma returnParameters_ok ns t v c : Sc ns t v c -> vg t v -> wp Ec (returnParameters rec) c (post true ns (fun _ => True)).
Proof. intros HS HG. eapply parameterListOf_ok; [discriminate|eassumption..]. Qed.
Lemma lambdaParameterList_ok ns t v c : Sc ns t v c -> vg t v -> wp Ec (lambdaParameterList rec) c (post true ns (fun _ => True)).
Proof. intros HS HG. unfold lambdaParameterList. k; tt_. Qed.
Lemma optParameterType_ok ns t v c : Sc ns t v c -> vg t v -> wp Ec (optParameterType rec) c (post true ns (fun _ => True)).
Proof. intros HS HG. unfold optParameterType. k. Qed.
Lemma parameterName_ok ns t v c : Sc ns t v c -> vg t v -> wp Ec (parameterName rec) c (post true ns (fun _ => True)).
Proof. intros HS HG. unfold parameterName. k. Qed.
Lemma attributeAlias_ok ns t v c : Sc ns t v c -> vg t v -> wp Ec (attributeAlias rec) c (post true ns (fun _ => True)).
Proof. intros HS HG. unfold attributeAlias. k. Qed.
Ltac sub2 := match goal with
  | |- wp _ (parameterList _) _ _ => c_call parameterList_ok
  | |- wp _ (returnParameters _) _ _ => c_call returnParameters_ok
  | |- wp _ (lambdaParameterList _) _ _ => c_call lambdaParameterList_ok
  | |- wp _ (optParameterType _) _ _ => c_call optParameterType_ok
  | |- wp _ (parameterName _) _ _ => c_call parameterName_ok
  | |- wp _ (attributeAlias _) _ _ => c_call attributeAlias_ok
  end.
Ltac c_sub ::= first [sub1 | sub2].
Lemma parameter_ok ns t v c : Sc ns t v c -> vg t v -> wp Ec (parameter rec) c (post true ns (fun _ => True)).
Proof. intros HS HG. unfold parameter. k. Qed.
Lemma returnParameter_ok ns t v c : Sc ns t v c -> vg t v -> wp Ec (returnParameter rec) c (post true ns (fun _ => True)).
Proof. intros HS HG. unfold returnParameter. k; tt_. Qed.
Lemma stepProperty_ok ns t v c : Sc ns t v c -> vg t v -> wp Ec (stepProperty rec) c (post true ns (fun _ => True)).
Proof. intros HS HG. unfold stepProperty. k. Qed.
Lemma stateAttribute_ok ns t v c : Sc ns t v c -> vg t v -> wp Ec (stateAttribute rec) c (post true ns (fun _ => True)).
Proof. intros HS HG. unfold stateAttribute. k. Qed.
Lemma produce_ok ns t v c p : Sc ns t v c -> vg t v -> wp Ec (produce rec p) c (post true ns (fun _ => True)).
Proof.
  intros HS HG. unfold produce. destruct p.
  all: first [eapply argument_ok | eapply keyedEntry_ok | eapply selectorEntry_ok | eapply stepProperty_ok | eapply stateAttribute_ok
    | eapply parameter_ok | eapply returnParameter_ok | eapply attributeAlias_ok | idtac]; try eassumption. k.
Qed.
Ltac sub3 := match goal with
  | |- wp _ (parameter _) _ _ => c_call parameter_ok
  | |- wp _ (produce _ _) _ _ => c_call produce_ok
  end.
Ltac c_sub ::= first [sub1 | sub2 | sub3].
Lemma expressions_ok ns t v c e p acc : (p = PStepProperty -> o_workflow o = true) -> Sc ns t v c -> vg t v -> wp Ec (expressions_body rec e p acc) c (post true ns (fun _ => True)).
Proof. intros N HS HG. unfold expressions_body. k; tt_. Qed.
Lemma relationship_ok ns t v c : Sc ns t v c -> vg t v -> wp Ec (relationship_body rec) c (post true ns (fun e => spine e = true)).
Proof. intros HS HG. unfold relationship_body. k. Qed.
Lemma relLoop_ok ns t v c e : spine e = true -> Sc ns t v c -> vg t v -> wp Ec (relLoop_body rec e) c (post true ns (fun e => spine e = true)).
Proof. intros HE HS HG. unfold relLoop_body. k; tt_. Qed.
Lemma resource_ok ns t v c : Sc ns t v c -> vg t v -> wp Ec (resource rec) c (post true ns (fun e => spine e = true)).
Proof. intros HS HG. unfold resource. k. Qed.
Ltac sub4 := match goal with
  | |- wp _ (resource _) _ _ => c_call resource_ok
  end.
Ltac c_sub ::= first [sub1 | sub2 | sub3 | sub4].
Lemma step_ok ns t v c : Sc ns t v c -> vg t v -> wp Ec (step rec) c (post true ns (fun e => spine e = true)).
Proof.
  intros HS HG. unfold step. c_go; [|k]. destruct a0; k; tt_.
Qed.
Ltac sub5 := match goal with
  | |- wp _ (step _) _ _ => c_call step_ok
  end.
Ltac c_sub ::= first [sub1 | sub2 | sub3 | sub4 | sub5].
Lemma assignment_ok ns t v c : Sc ns t v c -> vg t v -> wp Ec (assignment_body rec) c (post true ns (fun e => spine e = true)).
Proof. intros HS HG. unfold assignment_body. k. Qed.
Lemma assignLoop_ok ns t v c e : spine e = true -> Sc ns t v c -> vg t v -> wp Ec (assignLoop_body rec e) c (post true ns (fun e => spine e = true)).
Proof. intros HE HS HG. unfold assignLoop_body. k; tt_. Qed.
Lemma className_ok ns t v c : Sc ns t v c -> vg t v -> wp Ec (className rec) c (post true ns (fun _ => True)).
Proof. intros HS HG. unfold className. k; tt_. Qed.
Lemma braces_ok ns t v c : Sc ns t v c -> vg t v -> wp Ec (braces rec) c (post true ns (fun e => spine e = true)).
Proof. intros HS HG. unfold braces. k; tt_. Qed.
Ltac sub6 := match goal with
  | |- wp _ (className _) _ _ => c_call className_ok
  | |- wp _ (braces _) _ _ => c_call braces_ok
  end.
Ltac c_sub ::= first [sub1 | sub2 | sub3 | sub4 | sub5 | sub6].
Lemma capabilityMapping_ok ns t v c e s : Sc ns t v c -> vg t v -> wp Ec (capabilityMapping rec e s) c (post true ns (fun e => spine e = true)).
Proof.
  intros HS HG. unfold capabilityMapping. c_go.
  match goal with |- wp _ (match ?x with _ => _ end) ?c0 ?Q0 => assert (D : forall x0, Q0 x0 c0); [intros; cbn beta; k; tt_|] end.
  destruct e; try (apply wp_ret, D). apply wp_bind. eapply c_qual; [eassumption|]. intros. apply wp_ret, D.
Qed.
Ltac sub7 := match goal with
  | |- wp _ (capabilityMapping _ _ _) _ _ => c_call capabilityMapping_ok
  end.
Ltac c_sub ::= first [sub1 | sub2 | sub3 | sub4 | sub5 | sub6 | sub7].
Lemma expression_ok ns t v c : Sc ns t v c -> vg t v -> wp Ec (expression_body rec) c (post true ns (fun e => spine e = true)).
Proof. intros HS HG. unfold expression_body. k. all: destruct a0; k. Qed.
Lemma selectors_ok ns t v c e : Sc ns t v c -> vg t v -> wp Ec (selectorsExpression rec e) c (post true ns (fun e => spine e = true)).
Proof. intros HS HG. unfold selectorsExpression. k; tt_. Qed.
Ltac sub8 := match goal with
  | |- wp _ (selectorsExpression _ _) _ _ => c_call selectors_ok
  end.
Ltac c_sub ::= first [sub1 | sub2 | sub3 | sub4 | sub5 | sub6 | sub7 | sub8].
Lemma selectLoop_ok ns t v c e : spine e = true -> Sc ns t v c -> vg t v -> wp Ec (selectLoop_body rec e) c (post true ns (fun e => spine e = true)).
Proof. intros HE HS HG. unfold selectLoop_body. k. Qed.
Lemma operand_ok ns t v c l : Sc ns t v c -> vg t v -> wp Ec (level_operand rec l) c (post true ns (fun e => spine e = true)).
Proof. intros HS HG. unfold level_operand. k. Qed.
Ltac sub9 := match goal with
  | |- wp _ (level_operand _ _) _ _ => c_call operand_ok
  end.
Ltac c_sub ::= first [sub1 | sub2 | sub3 | sub4 | sub5 | sub6 | sub7 | sub8 | sub9].
Lemma level_ok ns t v c l : Sc ns t v c -> vg t v -> wp Ec (level_body rec l) c (post true ns (fun e => spine e = true)).
Proof. intros HS HG. unfold level_body. k. Qed.
Lemma op_texted l t k : level_op l t = Some k -> texted t = true.
Proof. destruct l, t; cbn; congruence. Qed.
Lemma levelLoop_ok ns t v c l e : spine e = true -> Sc ns t v c -> vg t v -> wp Ec (levelLoop_body rec l e) c (post true ns (fun e => spine e = true)).
Proof.
  intros HE HS HG. unfold levelLoop_body. c1. c1. destruct (level_op l t) eqn:E; [|k]. pose proof (@op_texted _ _ _ E).
  c1. assert (spine (EBin (mkpos 0 0) b [] e e) = true). { destruct l, t; try discriminate E; injection E as <-; reflexivity. }
  unfold level_op_text. destruct b; k; tt_.
Qed.
Lemma digit_peek ns t v c (Q : Z * Z -> ctx -> Prop) : Sc ns t v c ->
  (forall d w, (isDecimalDigit d = true -> digit_next c) -> Q (d, w) c) -> wp Ec peek c Q.
Proof.
  intros HS HQ. unfold wp, peek. destruct rune_at as [[d w]|] eqn:E.
  - apply HQ. intros D. exists d, w. auto.
  - apply soft_calm. eapply rune_at_soft, E.
Qed.
Lemma unary_node_ok ns t v c k start m : Sc ns t v c -> vg t v ->
  (forall t v c, Sc ns t v c -> vg t v -> wp Ec m c (post true ns (fun e => spine e = true))) ->
  wp Ec (unary_node rec k start m) c (post true ns (fun e => spine e = true)).
Proof.
  intros HS HG HM. unfold unary_node. c1. c_rec. c1. c_call HM. k.
Qed.
Lemma rec_ok ns t v c (f : fn expr) : args_ok o f -> (forall a, res_ok f a -> spine a = true) -> gives f = true ->
  Sc ns t v c -> vg t v -> wp Ec (rec f) c (post true ns (fun e => spine e = true)).
Proof. intros HA HR Hg HS HG. c_rec; auto. exists t0, v0. auto. Qed.
Lemma signed_ok ns t v c start : Sc ns t v c -> vg t v -> wp Ec (signed_number rec start) c (post true ns (fun e => spine e = true)).
Proof. intros HS HG. unfold signed_number. k. now rewrite spine_set_pos. Qed.
Ltac subA := match goal with
  | |- wp _ (signed_number _ _) _ _ => c_call signed_ok
  | |- wp _ (unary_node _ _ _ _) _ _ => eapply unary_node_ok; [eassumption|eassumption|intros; eapply rec_ok; [exact Logic.I|cbn; auto|reflexivity|eassumption|eassumption]]
  end.
Ltac c_sub ::= first [sub1 | sub2 | sub3 | sub4 | sub5 | sub6 | sub7 | sub8 | sub9 | subA].
Lemma unary_ok ns t v c : Sc ns t v c -> vg t v -> wp Ec (unary_body rec) c (post true ns (fun e => spine e = true)).
Proof.
  intros HS HG. unfold unary_body. c1. c_frame. c1. c1.
  assert (D : wp Ec (rec FPrimary) c0 (post true ns (fun e => spine e = true))) by k.
  destruct t; try exact D; clear D.
  all: lazymatch goal with HG : vg TSubtract _ |- _ => idtac | _ => try (k; tt_; fail) end.
  { c1. eapply digit_peek; [eassumption|]. intros d w D. cbn beta iota. destruct (isDecimalDigit d) eqn:Ed; [|k].
    specialize (D eq_refl). apply wp_bind. eapply wp_weaken; [eapply (@REC _ FNextToken); [eassumption|discriminate|exact Logic.I]|].
    cbn beta. c_clr. intros u c1 (t' & v' & HS & HG' & _ & HA). cbn [gives after] in *. specialize (HG' eq_refl). specialize (HA D). clear D.
    do 4 c1. destruct HG' as [HG' _]. destruct HA as [-> | ->]; destruct v'; try discriminate HG'.
    all: cbn beta iota delta [tok_eqb]; k; (split; [reflexivity|discriminate]). }
Qed.
Lemma collectQuery_ok ns t v c : Sc ns t v c -> vg t v -> wp Ec (collectQuery rec) c (post true ns (fun e => spine e = true)).
Proof. intros HS HG. unfold collectQuery. k; tt_. Qed.
Ltac subB := match goal with
  | |- wp _ (collectQuery _) _ _ => c_call collectQuery_ok
  end.
Ltac c_sub ::= first [sub1 | sub2 | sub3 | sub4 | sub5 | sub6 | sub7 | sub8 | sub9 | subA | subB].
Lemma collect_ok ns t v c e : Sc ns t v c -> vg t v -> wp Ec (collectExpression rec e) c (post true ns (fun e => spine e = true)).
Proof. intros HS HG. unfold collectExpression. k; tt_. Qed.
Lemma optReturnType_ok ns t v c : Sc ns t v c -> vg t v -> wp Ec (optReturnType rec) c (post true ns (fun _ => True)).
Proof. intros HS HG. unfold optReturnType. k; tt_. Qed.
Ltac subC := match goal with
  | |- wp _ (collectExpression _ _) _ _ => c_call collect_ok
  | |- wp _ (optReturnType _) _ _ => c_call optReturnType_ok
  end.
Ltac c_sub ::= first [sub1 | sub2 | sub3 | sub4 | sub5 | sub6 | sub7 | sub8 | sub9 | subA | subB | subC].
Lemma lambda_ok ns t v c : Sc ns t v c -> vg t v -> wp Ec (lambda rec) c (post true ns (fun e => spine e = true)).
Proof. intros HS HG. unfold lambda. k; tt_. Qed.
Ltac subD := match goal with
  | |- wp _ (lambda _) _ _ => c_call lambda_ok
  end.
Ltac c_sub ::= first [sub1 | sub2 | sub3 | sub4 | sub5 | sub6 | sub7 | sub8 | sub9 | subA | subB | subC | subD].
Lemma call_ok ns t v c e : spine e = true -> Sc ns t v c -> vg t v -> wp Ec (call_body rec e) c (post true ns (fun e => spine e = true)).
Proof.
  intros HE HS HG. unfold call_body. cbv zeta. c_go.
  all: destruct e; try (k; tt_; fail).
  all: destruct k; k; apply lhs_call_spine; [assumption|reflexivity].
Qed.
Ltac subE := fail.
Lemma primary_ok ns t v c : Sc ns t v c -> vg t v -> wp Ec (primary_body rec) c (post true ns (fun e => spine e = true)).
Proof. intros HS HG. unfold primary_body. k. Qed.
Lemma primaryLoop_ok ns t v c e : spine e = true -> Sc ns t v c -> vg t v -> wp Ec (primaryLoop_body rec e) c (post true ns (fun e => spine e = true)).
Proof.
  intros HE HS HG. unfold primaryLoop_body. cbv zeta. c1. c1.
  assert (D : wp Ec (match e with EBin p KNamedAccess _ _ _ => ret (convertLhsToCall e [] None p) | _ => ret e end) c (post true ns (fun e => spine e = true))).
  { destruct e; try (k; fail). destruct k; k. apply lhs_call_spine; [assumption|reflexivity]. }
  destruct t; try exact D; clear D.
  all: k; tt_.
  all: try (tk; left; reflexivity).
  all: try (destruct e; try reflexivity; destruct (isStatementCall name); reflexivity).
Qed.
Lemma if_ok ns t v c u : Sc ns t v c -> vg t v -> wp Ec (if_body rec u) c (post true ns (fun e => spine e = true)).
Proof. intros HS HG. unfold if_body. k; tt_. Qed.
Lemma caseOption_ok ns t v c : Sc ns t v c -> vg t v -> wp Ec (caseOption rec) c (post true ns (fun e => spine e = true)).
Proof. intros HS HG. unfold caseOption. k; tt_. Qed.
Ltac subF := match goal with
  | |- wp _ (caseOption _) _ _ => c_call caseOption_ok
  end.
Ltac c_sub ::= first [sub1 | sub2 | sub3 | sub4 | sub5 | sub6 | sub7 | sub8 | sub9 | subA | subB | subC | subD | subF].
Lemma caseOptions_ok ns t v c acc : Sc ns t v c -> vg t v -> wp Ec (caseOptions_body rec acc) c (post true ns (fun _ => True)).
Proof. intros HS HG. unfold caseOptions_body. k; tt_. Qed.
Lemma case_ok ns t v c : Sc ns t v c -> vg t v -> wp Ec (caseExpression rec) c (post true ns (fun e => spine e = true)).
Proof. intros HS HG. unfold caseExpression. k; tt_. Qed.
Lemma resourceExpr_ok ns t v c start e f : Sc ns t v c -> vg t v -> wp Ec (resourceExpr_body rec start e f) c (post true ns (fun e => spine e = true)).
Proof.
  intros HS HG. unfold resourceExpr_body. cbv zeta. k; tt_; tk; try discriminate.
Qed.
Lemma resourceBody_ok ns t v c title : title <> None -> Sc ns t v c -> vg t v -> wp Ec (resourceBody rec title) c (post true ns (fun _ => True)).
Proof. intros HT HS HG. unfold resourceBody. destruct title; [|congruence]. k; tt_. Qed.
Ltac subG := match goal with
  | |- wp _ (resourceBody _ _) _ _ => c_call resourceBody_ok
  end.
Ltac c_sub ::= first [sub1 | sub2 | sub3 | sub4 | sub5 | sub6 | sub7 | sub8 | sub9 | subA | subB | subC | subD | subF | subG].
Lemma bodies_ok ns t v c title acc : title <> None -> Sc ns t v c -> vg t v -> wp Ec (bodies_body rec title acc) c (post true ns (fun _ => True)).
Proof. intros HT HS HG. unfold bodies_body. k; tt_. Qed.
Lemma attributeOperation_ok ns t v c : Sc ns t v c -> vg t v -> wp Ec (attributeOperation rec) c (post true ns (fun _ => True)).
Proof. intros HS HG. unfold attributeOperation. k; tt_. Qed.
Ltac subH := match goal with
  | |- wp _ (attributeOperation _) _ _ => c_call attributeOperation_ok
  end.
Ltac c_sub ::= first [sub1 | sub2 | sub3 | sub4 | sub5 | sub6 | sub7 | sub8 | sub9 | subA | subB | subC | subD | subF | subG | subH].
Lemma attrOps_ok ns t v c acc : Sc ns t v c -> vg t v -> wp Ec (attrOps_body rec acc) c (post true ns (fun _ => True)).
Proof. intros HS HG. unfold attrOps_body. k; tt_. Qed.
Ltac c_sub0 := first [sub1 | sub2 | sub3 | sub4 | sub5 | sub6 | sub7 | sub8 | sub9 | subA | subB | subC | subD | subF | subG | subH].
Lemma alias_ok ns t v c : typed T -> Sc ns t v c -> vg t v -> wp Ec (alias_body rec) c (post true ns (fun _ => True)).
Proof.
  intros HT HS HG. unfold alias_body. cbv zeta. c_go.
  destruct a1; try (k; fail).
  - destruct elements as [|x [|y l]]; k.
  - k. destruct a1; try (k; exact HT).
Qed.
Ltac subI := match goal with
  | |- wp _ (alias_body _) _ _ => c_call alias_ok
  end.
Ltac c_sub ::= first [c_sub0 | subI].
Lemma typeAlias_ok ns t v c : typed T -> Sc ns t v c -> vg t v -> wp Ec (typeAliasOrDefinition rec) c (post true ns (fun e => spine e = true)).
Proof.
  intros HT HS HG. unfold typeAliasOrDefinition. cbv zeta. c_go.
  destruct a0; try (k; tt_; fail).
  k; tt_. destruct HR1 as (? & ? & ->). k; tt_.
Qed.
Lemma optParameterList_ok ns t v c : Sc ns t v c -> vg t v -> wp Ec (optParameterList rec) c (post true ns (fun _ => True)).
Proof. intros HS HG. unfold optParameterList. k; tt_. Qed.
Lemma definitionName_ok ns t v c code : Sc ns t v c -> vg t v -> wp Ec (definitionName code) c (post true ns (fun _ => True)).
Proof. intros HS HG. unfold definitionName. k; tt_. Qed.
Ltac subJ := match goal with
  | |- wp _ (typeAliasOrDefinition _) _ _ => c_call typeAlias_ok
  | |- wp _ (optParameterList _) _ _ => c_call optParameterList_ok
  | |- wp _ (definitionName _) _ _ => c_call definitionName_ok
  | HS : Sc _ _ _ ?c |- wp _ (pushName _) ?c _ => eapply c_push; [exact HS|clear HS; try clear c; intros c HS]
  | HS : Sc _ _ _ ?c |- wp _ popName ?c _ => eapply c_pop; [exact HS|clear HS; try clear c; intros c HS]
  end.
Ltac c_sub ::= first [c_sub0 | subI | subJ].
Lemma function_ok ns t v c : Sc ns t v c -> vg t v -> wp Ec (functionDefinition rec) c (post true ns (fun e => spine e = true)).
Proof. intros HS HG. unfold functionDefinition. k; tt_. Qed.
Lemma plan_ok ns t v c : Sc ns t v c -> vg t v -> wp Ec (planDefinition rec) c (post true ns (fun e => spine e = true)).
Proof. intros HS HG. unfold planDefinition. k; tt_. Qed.
Lemma dotted_ok ns t v c start names : Sc ns t v c -> vg t v -> wp Ec (dotted_body rec start names) c (post true ns (fun e => spine e = true)).
Proof.
  intros HS HG. unfold dotted_body. do 5 c1. destruct HG as [G1 G2]. destruct t; destruct v; try discriminate G1.
  all: assert (HG : vg _ _) by (split; eassumption).
  all: k; tt_.
Qed.
Lemma hostname_ok ns t v c : Sc ns t v c -> vg t v -> wp Ec (hostname rec) c (post true ns (fun e => spine e = true)).
Proof.
  intros HS HG. unfold hostname. do 4 c1. destruct t; try (k; tt_; fail).
  all: c1; eapply c_value; [eassumption|eassumption|auto|]; intros; k; tt_.
Qed.
Ltac subK := match goal with
  | |- wp _ (hostname _) _ _ => c_call hostname_ok
  | |- wp _ (functionDefinition _) _ _ => c_call function_ok
  | |- wp _ (planDefinition _) _ _ => c_call plan_ok
  end.
Ltac c_sub ::= first [c_sub0 | subI | subJ | subK].
Lemma hostnames_ok ns t v c acc : Sc ns t v c -> vg t v -> wp Ec (hostnames_body rec acc) c (post true ns (fun _ => True)).
Proof. intros HS HG. unfold hostnames_body. k; tt_. Qed.
Lemma node_ok ns t v c : Sc ns t v c -> vg t v -> wp Ec (nodeDefinition rec) c (post true ns (fun e => spine e = true)).
Proof. intros HS HG. unfold nodeDefinition. k; tt_. Qed.
Lemma class_ok ns t v c start : Sc ns t v c -> vg t v -> wp Ec (classExpression rec start) c (post true ns (fun e => spine e = true)).
Proof. intros HS HG. unfold classExpression. cbv zeta. k; tt_. Qed.
Lemma site_ok ns t v c : Sc ns t v c -> vg t v -> wp Ec (siteDefinition rec) c (post true ns (fun e => spine e = true)).
Proof. intros HS HG. unfold siteDefinition. k; tt_. Qed.
Lemma define_ok ns t v c k : Sc ns t v c -> vg t v -> wp Ec (resourceDefinition rec k) c (post true ns (fun e => spine e = true)).
Proof. intros HS HG. unfold resourceDefinition. k; tt_. Qed.
Lemma stepStyle_ok ns t v c : Sc ns t v c -> vg t v -> wp Ec (stepStyle rec) c (post true ns (fun _ => True)).
Proof. intros HS HG. unfold stepStyle. k; tk; left; reflexivity. Qed.
Lemma stepName_ok ns t v c st : Sc ns t v c -> vg t v -> wp Ec (stepName rec st) c (post true ns (fun _ => True)).
Proof. intros HS HG. unfold stepName. k; tt_. Qed.
Ltac subL := match goal with
  | |- wp _ (stepStyle _) _ _ => c_call stepStyle_ok
  | |- wp _ (stepName _ _) _ _ => c_call stepName_ok
  | |- wp _ (nodeDefinition _) _ _ => c_call node_ok
  | |- wp _ (classExpression _ _) _ _ => c_call class_ok
  | |- wp _ (siteDefinition _) _ _ => c_call site_ok
  | |- wp _ (resourceDefinition _ _) _ _ => c_call define_ok
  | |- wp _ (caseExpression _) _ _ => c_call case_ok
  end.
Ltac c_sub ::= first [c_sub0 | subI | subJ | subK | subL].
Lemma stepExpression_ok ns t v c : o_workflow o = true -> Sc ns t v c -> vg t v -> wp Ec (stepExpression rec) c (post true ns (fun _ => True)).
Proof. intros W HS HG. unfold stepExpression. k; tt_. Qed.
Lemma iterator_ok ns t v c n : o_workflow o = true -> Sc ns t v c -> vg t v -> wp Ec (iterator rec n) c (post true ns (fun _ => True)).
Proof. intros W HS HG. unfold iterator. cbv zeta. k; tt_. Qed.
Ltac subM := match goal with
  | |- wp _ (stepExpression _) _ _ => c_call stepExpression_ok
  | |- wp _ (iterator _ _) _ _ => c_call iterator_ok
  end.
Ltac c_sub ::= first [c_sub0 | subI | subJ | subK | subL | subM].
Lemma activities_ok ns t v c acc : o_workflow o = true -> Sc ns t v c -> vg t v -> wp Ec (activities_body rec acc) c (post true ns (fun _ => True)).
Proof. intros W HS HG. unfold activities_body. k; tt_. Qed.
Lemma stepDecl_ok ns t v c start st name top : o_workflow o = true -> Sc ns t v c -> vg t v -> wp Ec (stepDecl_body rec start st name top) c (post true ns (fun e => spine e = true)).
Proof.
  intros W HS HG. unfold stepDecl_body. cbv zeta.
  destruct st; k; tt_; auto.
Qed.
Lemma leaf_ok ns t v c start mk : Sc ns t v c -> vg t v ->
  (forall p t v c, Sc ns t v c -> vg t v -> wp Ec (mk p) c (post true ns (fun e => spine e = true))) ->
  wp Ec (leaf rec start mk) c (post true ns (fun e => spine e = true)).
Proof. intros HS HG HM. unfold leaf. do 3 c1. c_call HM. k. Qed.
Lemma atom_ok ns t v c : Sc ns t v c -> vg t v -> wp Ec (atom_body rec) c (post true ns (fun e => spine e = true)).
Proof.
  intros HS HG. unfold atom_body. do 6 c1.
  destruct t; try (k; tt_; fail).
  all: try (unfold leaf; destruct (proj1 HG); k; tt_; fail).
  all: try (c1; eapply c_value; [eassumption|eassumption|auto|]; intros; k; tt_; fail).
  all: try (destruct HG as [G1 G2]; destruct v; try discriminate G1; assert (HG : vg _ _) by (split; eassumption); unfold leaf; k; tt_; fail).
  pose proof (proj2 HG eq_refl). k; tt_.
Qed.
Lemma asEpp_ok ns t v c e : Sc ns t v c -> vg t v -> wp Ec (asEppLambda e) c (post true ns (fun e => spine e = true)).
Proof.
  intros HS HG. unfold asEppLambda. c_go. destruct e; try (k; tt_; fail). destruct e; k; tt_.
Qed.
Ltac subN := match goal with
  | |- wp _ (asEppLambda _) _ _ => c_call asEpp_ok
  end.
Ltac c_sub ::= first [c_sub0 | subI | subJ | subK | subL | subM | subN].
Lemma eppLoop_ok ns t v c acc : forallb stmt acc = true -> Sc ns t v c -> vg t v -> wp Ec (eppLoop_body rec acc) c (post true ns (fun e => spine e = true)).
Proof. intros HA HS HG. unfold eppLoop_body. k; tt_. apply stmt_snoc; [assumption|now apply spine_stmt]. Qed.
Lemma parseTop_ok ns t v c single : Sc ns t v c -> wp Ec (parseTop rec single) c (post true ns (fun _ => True)).
Proof.
  intros HS. unfold parseTop. do 2 c1. destruct (o_epp o); [|k; tt_].
  c1. eapply wp_weaken; [eapply consumeEPP_ok; eassumption|]. cbn beta. c_clr. intros u c' (t' & v' & HS & HG & _). specialize (HG eq_refl).
  k; tt_; tk; try (left; reflexivity). destruct s; reflexivity.
Qed.

Lemma body_ok A (f : fn A) ns t v c : Sc ns t v c -> (needs f = true -> vg t v) -> args_ok o f ->
  wp Ec (body rec f) c (fun a c' => exists t' v', Sc ns t' v' c' /\ (gives f = true -> vg t' v') /\ res_ok f a /\ after f c t').
Proof.
  intros HS HN HA.
  assert (D : forall m, wp Ec m c (post (gives f) ns (@res_ok A f)) -> (forall t', after f c t') ->
    wp Ec m c (fun a c' => exists t' v', Sc ns t' v' c' /\ (gives f = true -> vg t' v') /\ res_ok f a /\ after f c t')).
  { intros m H1 H2. eapply wp_weaken; [exact H1|]. cbn beta. intros a c' (t' & v' & K1 & K2 & K3). exists t', v'. auto. }
  destruct f; cbn [body needs gives args_ok] in *; try specialize (HN eq_refl).
  1: { eapply wp_weaken; [eapply nextToken_ok; eassumption|]. cbn beta. intros a c' (t' & v' & K1 & K2 & K3). exists t', v'. cbn. auto. }
  1: { eapply wp_weaken; [eapply delim_body_ok; eassumption|]. cbn beta. intros a c' (t' & v' & K1 & K2 & K3). exists t', v'. cbn. auto. }
  all: apply D; [|intros; exact Logic.I]; clear D; cbn [gives res_ok].
  all: first
    [ eapply apply_body_ok | eapply parse_ok | eapply statements_ok | eapply commas_ok | eapply expressions_ok
    | eapply relationship_ok | eapply relLoop_ok | eapply assignment_ok | eapply assignLoop_ok | eapply expression_ok | eapply selectLoop_ok
    | eapply level_ok | eapply levelLoop_ok | eapply unary_ok | eapply primary_ok | eapply primaryLoop_ok | eapply atom_ok | eapply call_ok
    | eapply parameterType_ok | eapply if_ok | eapply caseOptions_ok | eapply resourceExpr_ok | eapply bodies_ok | eapply attrOps_ok
    | eapply hostnames_ok | eapply dotted_ok | eapply activities_ok | eapply stepDecl_ok | eapply eppLoop_ok | idtac ]; eassumption.
Qed.
End Rec.

Lemma calms_run T o n : calms T o (run n).
Proof.
  induction n as [|n IH]; intros A f ns t v c HS HN HA; [exact I|]. cbn [run]. eapply body_ok; eassumption.
Qed.
(** Whatever the outcome, only a source with the word type can end in a failed
    type assertion, only workflow syntax in a string that is none; there is no
    nil, no empty name stack and no empty list of arguments. *)
Lemma run_calm n c source single :
  match parse_run n c source single with Err e _ => calm source (c_opts c) e | _ => True end.
Proof.
  unfold parse_run.
  assert (HS : Sc source (c_opts c) (c_names c) (c_tok c) (c_val c) (start_ctx source c)).
  { destruct c. repeat split; reflexivity. }
  pose proof (@parseTop_ok source (c_opts c) (run n) (@calms_run source (c_opts c) n) _ _ _ _ single HS) as H. unfold wp in H.
  destruct (parseTop _ _ _) as [e c'|e c'|]; exact H || exact I.
Qed.
