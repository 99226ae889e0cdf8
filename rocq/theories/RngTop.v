(** * RngTop: a whole run stays in range *)
From Verif Require Import Base Float Tokens Ast Ctx Locator Lexer Parser Wp RngBase RngSpec RngLex RngTree RngParse.
From Coq Require Import Lia ZifyBool.

Section Rec.
Variable T : str.
Variable o : opts.
Variable rec : forall A, fn A -> M A.
Hypothesis REC : ranged T o rec.
Hypothesis NOHERE : ~ heredoc T.
Hypothesis NOWF : o_workflow o = false.
Notation L := (zlen T). Notation Sr := (Sr T o). Notation wp := (wp Er).

Lemma lambdaCall_r p t s v c (Q : list expr -> ctx -> Prop) : Sr p t s v c -> VR 0 p p t s v ->
  (forall l p' t' s' v' c', p <= p' -> Sr p' t' s' v' c' -> VR 0 p' p' t' s' v' -> Forall (within 0 p') l -> Q l c') -> wp (lambdaParameterList rec) c Q.
Proof.
  intros HS HV HQ. eapply wp_weaken; [eapply lambdaParameterList_r with (lo := 0) (q := p); try eassumption; unfold low; lia|].
  intros l c' (p' & t' & s' & v' & HS' & Hp & HG & HR). eapply HQ; [|exact HS'|exact (HG eq_refl)|exact HR]. exact Hp.
Qed.

Lemma eppBody_r c1 p1 t1 s1 v1 tx : Sr p1 t1 s1 v1 c1 -> VR 0 p1 p1 t1 s1 v1 \/ t1 = TEnd -> wp (cur <- curTok ;;
      (if tok_eqb cur TEnd then p <- span 0 ;; asEppLambda (ERenderString p tx)
       else if tok_eqb cur TPipe then match tx with _ :: _ => issue PARSE_ILLEGAL_EPP_PARAMETERS | [] => params <- lambdaParameterList rec ;; rec FNextToken ;; b <- rec (FParse TEnd false) ;; p <- span 0 ;; asEppLambda (eppLambda params b p) end
       else ts <- tokStart ;; rec (FEppLoop (match tx with [] => [] | _ => [ERenderString (mkpos 0 ts) tx] end)))) c1
       (fun a c' => exists p' t' s' v', Sr p' t' s' v' c' /\ within 0 p' a).
Proof.
  assert (HL : low 0) by (unfold low; lia).
  intros HS1 HV1. r_rng. r. r_case.
  - r. eapply wp_weaken; [eapply (@asEpp_r T o NOWF); [eassumption|s_within]|]. intros a c' (HS' & HW). exists p1, t1, s1, v1. auto.
  - destruct HV1 as [HV1| ->]; [|discriminate]. r_in. r_case.
    + destruct tx; [|exact Logic.I]. apply wp_bind. eapply lambdaCall_r; [eassumption|eassumption|r_in]. r.
      eapply wp_weaken; [eapply (@asEpp_r T o NOWF); [eassumption|unfold eppLambda; s_within]|]. intros a0 c9 (HS' & HW). do 4 eexists. eauto.
    + r. { destruct tx; cbn [chain]; [RngParse.s1|]. split; [reflexivity|]. split; [reflexivity|]. split; [s_within|split; [constructor|exact Logic.I]]. }
      do 4 eexists. eauto.
Qed.
Lemma parseTop_r b p t s v c : Sr p t s v c -> p = 0 -> wp (parseTop rec b) c (fun a c' => exists p' t' s' v', Sr p' t' s' v' c' /\ within 0 p' a).
Proof.
  intros HS ->. assert (HL : low 0) by (unfold low; lia). r_rng. unfold parseTop. r. destruct (o_epp o).
  - r.
    eapply (consumeEPP_r REC); [eassumption| |].
    + intros p1 t1 v1 c1 Hp1 HS1 [[-> ->]|[-> [x ->]]]; r_in; apply wp_bind; r0; apply wp_bind.
      * change (tok_eqb TEnd TRenderString) with false. cbv iota. apply wp_ret. eapply eppBody_r; [eassumption|right; reflexivity].
      * change (tok_eqb TRenderString TRenderString) with true. cbv iota. apply wp_bind. r0. apply wp_bind.
        eapply (nextToken_r REC (lo := 0)); [eassumption|lia|r_in]. apply wp_ret. eapply eppBody_r; [eassumption|left; assumption].
    + intros p1 t1 s1 v1 c1 Hp1 HS1 HV1. r_in. apply wp_bind. r0. apply wp_bind. r_case.
      * apply wp_bind. r0. apply wp_bind.
        eapply (nextToken_r REC (lo := 0)); [eassumption|lia|r_in]. apply wp_ret. eapply eppBody_r; [eassumption|left; assumption].
      * apply wp_ret. eapply eppBody_r; [eassumption|left; assumption].
  - y. do 4 eexists. eauto.
Qed.

Lemma body_r A (f : fn A) lo q p t s v c :
  Sr p t s v c -> (needs f = true -> VR lo q p t s v) -> args_ok f lo q p s ->
  wp (body rec f) c (fun a c' => exists p' t' s' v',
    Sr p' t' s' v' c' /\ p <= p' /\ (gives f = true -> VR lo p' p' t' s' v') /\ res_ok f lo q p s p' s' a).
Proof.
  intros HS HN HA.
  assert (D : forall (R : Z -> A -> Prop) (m : M A), (forall p' s' a, R p' a -> res_ok f lo q p s p' s' a) ->
    wp m c (RngParse.post T o (gives f) lo p R) ->
    wp m c (fun a c' => exists p' t' s' v', Sr p' t' s' v' c' /\ p <= p' /\ (gives f = true -> VR lo p' p' t' s' v') /\ res_ok f lo q p s p' s' a)).
  { intros R m H1 H2. eapply wp_weaken; [exact H2|]. cbn beta. intros a c' (p' & t' & s' & v' & K1 & K2 & K3 & K4). exists p', t', s', v'. auto. }
  destruct f; cbn [body needs gives args_ok] in *; try specialize (HN eq_refl); try contradiction; r_split; try subst q.
  1: { eapply (nextToken_body_r REC NOHERE (lo := lo)); [eassumption|lia|]. intros p' t' s' v' c' K1 K2 K3 K4. exists p', t', s', v'. cbn [res_ok]. auto. }
  1: { eapply (delim_body_r REC (lo := lo)); try eassumption; try lia.
       intros a p' t' s' v' c' K1 K2 K3 K4 K5. exists p', t', s', v'. cbn [res_ok]. auto. }
  all: lazymatch goal with HN : VR ?l _ _ _ _ _ |- _ => assert (HL : low l) by (destruct (VR_range HN); unfold low; lia) end.
  all: try subst lo.
  all: eapply D; clear D; cbn [gives res_ok];
   [|first
    [ eapply parse_r | eapply statements_r | eapply RngParse.commas_r | eapply expressions_r
    | eapply relationship_r | eapply relLoop_r | eapply assignment_r | eapply assignLoop_r | eapply expression_r | eapply selectLoop_r
    | eapply level_r | eapply levelLoop_r | eapply unary_r | eapply primary_r | eapply primaryLoop_r | eapply atom_r | eapply call_r
    | eapply parameterType_r | eapply if_r | eapply caseOptions_r | eapply resourceExpr_r | eapply bodies_r | eapply attrOps_r
    | eapply hostnames_r | eapply dotted_r | eapply eppLoop_r]; first [eassumption|lia|reflexivity]]; cbv beta; intros; assumption.
Qed.
End Rec.

Lemma run_ranged T o n : ~ heredoc T -> o_workflow o = false -> ranged T o (run n).
Proof.
  intros H1 H2. induction n as [|n IH]; intros A f lo q p t s v c HS HN HA; [exact Logic.I|]. cbn [run]. eapply body_r; eassumption.
Qed.
(** Whatever the outcome: no slice and no index is out of bounds, and every
    node of the tree and of the definitions is a span of the text *)
Lemma run_range n c source single : 0 <= c_bol c -> ~ heredoc source -> o_workflow (c_opts c) = false ->
  match parse_run n c source single with
  | Err e c' => Er e c'
  | Ok e c' => within 0 (zlen source) e /\ Forall (within 0 (zlen source)) (c_defs c')
  | Fuel => True
  end.
Proof.
  intros HB H1 H2. unfold parse_run.
  assert (HS : Sr source (c_opts c) 0 (c_tok c) (c_tsp c) (c_val c) (start_ctx source c)).
  { destruct c. unfold Sr. cbn in *. pose proof (@zlen_nn _ source). repeat (split; [reflexivity|]). split; [assumption|]. split; [lia|constructor]. }
  pose proof (@parseTop_r source (c_opts c) (run n) (run_ranged n H1 H2) H2 single _ _ _ _ _ HS eq_refl) as H. unfold wp in H.
  destruct (parseTop _ _ _) as [e c'|e c'|]; [|exact H|exact Logic.I].
  destruct H as (p' & t' & s' & v' & (_ & _ & _ & HP & _ & _ & _ & _ & HL & HD) & HW).
  assert (HW' : within 0 (zlen source) e) by (eapply within_mono; [exact HW|lia|lia]).
  split; [|exact HD]. destruct single; [exact HW'|]. apply within_node.
  - unfold spanned, eend, byteOffset, byteLength. cbn. lia.
  - cbn [children]. constructor; [exact HW'|]. first [exact HD|constructor].
Qed.
