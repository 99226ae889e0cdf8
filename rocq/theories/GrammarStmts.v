(** * GrammarStmts: the rules of the grammar, assignments, relationships, statements, lists *)
From Verif Require Import Base Float Tokens Ast Ctx Locator Lexer Parser SpecLex ReaderProof Utf8Facts LexBase GapProof LocatorProof LexTokens LexCur Evals Ends SpecGrammar GrammarBase GrammarFirst GrammarTree GrammarSem GrammarAtoms GrammarExprs.
From Coq Require Import Lia ZifyBool.

Section Rules.
Variables (o : opts) (m : mode).
Hypothesis Hfac : o_factory o = true.
Hypothesis Hm : lawful o m.
Notation st := (st o m).
Notation sem := (sem o m).
Notation sem1 := (sem1 o m).
Notation semL := (semL o m).
Notation semC := (semC o m).
Notation semO := (semO o m).
Notation rel_done := (@rel_done o m Hfac).
Notation sem_braces := (@sem_braces o m Hfac Hm).

Lemma style_of s st : workflowStyle s = Some st <-> exists w, In (w, st) step_styles /\ s = lit w.
Proof.
  unfold workflowStyle, step_styles. split.
  - destruct (str_eqb s (lit "action")) eqn:E1; [apply str_eqb_eq in E1; intros X; injection X as <-; eexists; split; [|exact E1]; cbn [In]; tauto|].
    destruct (str_eqb s (lit "resource")) eqn:E2; [apply str_eqb_eq in E2; intros X; injection X as <-; eexists; split; [|exact E2]; cbn [In]; tauto|].
    destruct (str_eqb s (lit "stateHandler")) eqn:E3; [apply str_eqb_eq in E3; intros X; injection X as <-; eexists; split; [|exact E3]; cbn [In]; tauto|].
    destruct (str_eqb s (lit "workflow")) eqn:E4; [apply str_eqb_eq in E4; intros X; injection X as <-; eexists; split; [|exact E4]; cbn [In]; tauto|]. discriminate.
  - intros (w & HI & ->). cbn [In] in HI. repeat (destruct HI as [HI|HI]; [injection HI as <- <-; reflexivity|]). destruct HI.
Qed.
Lemma step_of c (Q : expr -> ctx -> Prop) : ends (fun r => resource r) c (fun e c1 => Q e c1 /\ c_opts c1 = o /\ (o_workflow o = true -> ~ style_name (strip e))) -> ends (fun r => step r) c Q.
Proof.
  intros H. unfold step. g1. apply ends_bind. eapply ends_imp; [exact H|]. intros e c1 (HQ & Ho & HN). eapply ends_step; [reflexivity|]. rewrite Ho. destruct (o_workflow o); [|g; exact HQ].
  specialize (HN eq_refl). destruct e; try (g; exact HQ). destruct (workflowStyle name) eqn:E; [|g; exact HQ]. exfalso. apply HN. apply style_of in E. destruct E as (w & HI & ->). exists w, s. split; [exact HI|reflexivity].
Qed.
Lemma sem_resource ns ts e : sem Expression ns ts [e] -> (o_workflow o = true -> ~ style_name e) -> sem Resource ns ts [e].
Proof.
  intros H HN. one. apply step_of. unfold resource. call1 H; [eapply apart_le; [exact HA|lia]|]. g1. pose proof (apart_tok HA) as HT.
  destruct (tok_eqb_spec (tok_of rest) TLc) as [X|_]; [rewrite X in HT; cbn in HT; lia|]. g. split; [fin; exact A|]. split; [exact (st_opts S0)|]. now rewrite E.
Qed.
Lemma stop_assign (e : expr) rest c0 ds ns c (Q : expr -> ctx -> Prop) : st c0 ds ns rest c -> apart 14 rest -> Q e c -> ends (fun r => r expr (FAssignLoop e)) c Q.
Proof. intros S HA HQ. apply ends_rec. cbn [body]. unfold assignLoop_body. g1. dflt (fun _ : recT => ret e) HA rest. g. exact HQ. Qed.
Lemma stop_rel (e : expr) rest c0 ds ns c (Q : expr -> ctx -> Prop) : st c0 ds ns rest c -> apart 15 rest -> Q e c -> ends (fun r => r expr (FRelLoop e)) c Q.
Proof. intros S HA HQ. apply ends_rec. cbn [body]. unfold relLoop_body. g1. dflt (fun _ : recT => ret e) HA rest. g. exact HQ. Qed.
Lemma sem_assign_none ns ts e : sem Resource ns ts [e] -> sem Assign ns ts [e].
Proof.
  intros H. one. apply ends_rec. cbn [body]. unfold assignment_body. call1 H; [eapply apart_le; [exact HA|lia]|]. eapply stop_assign; [eassumption|exact HA|]. fin. exact A.
Qed.
Ltac in_cases HI := cbn [In] in HI; repeat (destruct HI as [HI|HI]; [injection HI as <- <-|]); try destruct HI.
Lemma assign_facts t s : In (t, s) assignments -> continues t = Some 14%nat /\ tokenMap t = lit s /\ t <> TEnd /\
  (t = TAssign \/ t = TAddAssign \/ t = TSubtractAssign).
Proof. unfold assignments. intros HI. in_cases HI; repeat split; auto; discriminate. Qed.
Lemma sem_assign ns ts1 e k s ts2 r : sem Resource ns ts1 [e] -> In (k_tok k, s) assignments -> k_val k = VNil -> sem Assign ns ts2 [r] ->
    sem Assign ns (ts1 ++ k :: ts2) [EBin z KAssignment (lit s) e r].
Proof.
  intros H1 HI HV H2. destruct (assign_facts HI) as (HC & HT & HN & HM). one. apply ends_rec. cbn [body]. unfold assignment_body.
  call1 H1; [cbn [apart]; unfold stops; rewrite HC; lia|]. apply ends_rec. cbn [body]. unfold assignLoop_body. destruct HM as [HM|[HM|HM]]; (g1; eapply (ends_string S0 (s := lit s)); [right; rewrite (shown_not m HN), HT; auto|]); (g1; call1 H2; [exact HA|]; g; eapply stop_assign; [eassumption|exact HA|]; fin).
Qed.
Lemma sem_rel_none ns ts e : sem Assign ns ts [e] -> sem Rel ns ts [e].
Proof.
  intros H e' E c0 ds c rest Q S HA HK. injection E as <-. apply ends_rec. cbn [body]. unfold relationship_body. call1 H; [exact HA|]. eauto.
Qed.
Lemma edge_facts t s : In (t, s) edges -> continues t = Some 15%nat /\ tokenMap t = lit s /\ t <> TEnd /\
  (t = TInEdge \/ t = TInEdgeSub \/ t = TOutEdge \/ t = TOutEdgeSub).
Proof. unfold edges. intros HI. in_cases HI; repeat split; auto; discriminate. Qed.
Lemma sem_edge ns ts1 e k s ts2 r : sem Rel ns ts1 [e] -> In (k_tok k, s) edges -> k_val k = VNil -> sem Assign ns ts2 [r] -> sem Rel ns (ts1 ++ k :: ts2) [EBin z KRelationship (lit s) e r].
Proof.
  intros H1 HI HV H2 e' E c0 ds c rest Q S HA HK. injection E as <-. norm S. destruct (edge_facts HI) as (HC & HT & HN & HM).
  eapply H1; [reflexivity|exact S|cbn [apart]; unfold stops; rewrite HC; lia|]. clear S. intros e1 c1 S1 E1 A1. apply ends_rec. cbn [body]. unfold relLoop_body. destruct HM as [HM|[HM|[HM|HM]]]; (g1; eapply (ends_string S1 (s := lit s)); [right; rewrite (shown_not m HN), HT; auto|]; g1; call1 H2; [exact HA|]; g; eapply HK; [sd| |exact Logic.I]; cbn [strip]; congruence).
Qed.
(** ** Statements *)
Lemma apart_comma rest : apart 16 rest -> tok_of rest <> TComma.
Proof. intros H X. apply apart_tok in H. rewrite X in H. cbn in H. lia. Qed.
Lemma stop_commas acc rest c0 ds ns c (Q : list expr -> ctx -> Prop) : st c0 ds ns rest c -> apart 16 rest -> Q acc c -> ends (fun r => r _ (FCommas acc)) c Q.
Proof.
  intros S HA HQ. apply ends_rec. cbn [body]. unfold commas_body. g1. destruct (tok_eqb_spec (tok_of rest) TComma) as [X|_]; [exfalso; exact (apart_comma HA X)|]. g. exact HQ.
Qed.
Lemma sem_statement ns ts e : sem Rel ns ts [e] -> sem Stmt ns ts [e].
Proof.
  intros H. apply rel_done in H. one. unfold syntacticStatement. call1 H; [eapply apart_le; [exact HA|lia]|]. apply ends_bind. eapply stop_commas; [eassumption|exact HA|]. g1. cbv iota. g. fin. exact A.
Qed.
Lemma sem_statement_list ns ts e ts2 es : sem Rel ns ts [e] -> sem Rels ns ts2 es -> firsts Rels ts2 es -> es <> [] -> sem Stmt ns (ts ++ ts2) [ECommaList z (e :: es)].
Proof.
  intros H1 H2 HF HE. apply rel_done in H1. one. destruct (firsts_one HF eq_refl) as [Hne Hf]. cbn [first] in Hf. apply tok_eqb_eq in Hf. unfold syntacticStatement.
  call1 H1; [destruct ts2 as [|k ts2]; [congruence|]; cbn [app apart]; cbn [tok_of] in Hf; unfold stops; rewrite Hf; cbn; lia|].
  apply ends_bind. eapply ends_imp; [eapply (H2 [e0]); [eassumption|exact HA]|]. intros l c2 (S2 & l1 & -> & El). g.
  assert (l1 <> []) by (intros ->; cbn in El; congruence). destruct l1 as [|x l1]; [congruence|]. cbn [app]. cbv iota. cbn [map] in El. g. fin.
Qed.
Lemma sem_rels_one ns k ts e : is TComma k -> sem Rel ns ts [e] -> sem Rels ns (k :: ts) [e].
Proof.
  unis. intros Hk H acc c0 ds c rest S HA. apply rel_done in H. norm S. apply ends_rec. cbn [body]. unfold commas_body. g. call1 H; [eapply apart_le; [exact HA|lia]|].
  eapply stop_commas; [eassumption|exact HA|]. split; [sd|]. eexists. split; [reflexivity|]. cbn. congruence.
Qed.
Lemma sem_rels_more ns k ts e ts2 es : is TComma k -> sem Rel ns ts [e] -> firsts Rels ts2 es -> sem Rels ns ts2 es -> sem Rels ns (k :: ts ++ ts2) (e :: es).
Proof.
  unis. intros Hk H HF H2 acc c0 ds c rest S HA. apply rel_done in H. norm S. apply ends_rec. cbn [body]. unfold commas_body. g.
  destruct (firsts_one HF eq_refl) as [Hne Hf]. cbn [first] in Hf. apply tok_eqb_eq in Hf.
  call1 H; [destruct ts2 as [|k' ts2]; [congruence|]; cbn [app apart]; cbn [tok_of] in Hf; unfold stops; rewrite Hf; cbn; lia|].
  eapply ends_imp; [eapply (H2 (acc ++ [e0])); [eassumption|exact HA]|]. intros l c9 (S9 & l1 & -> & El). split; [sd|]. exists (e0 :: l1). rewrite <- app_assoc. split; [reflexivity|]. cbn. congruence.
Qed.
Lemma shown_term term : term = TRc \/ term = TEnd /\ embedded m = false -> shown m term = term.
Proof. intros [-> | [-> E]]; cbn [shown]; [reflexivity|now rewrite E]. Qed.
Lemma sem_no_statements ns : sem Stmts ns [] [].
Proof.
  intros term Ht acc c0 ds c rest S HT. norm S. apply ends_rec. cbn [body]. unfold statements_body. g1. rewrite HT, (shown_term Ht), tok_eqb_refl. g. split; [sd|]. exists []. rewrite app_nil_r. auto.
Qed.
Lemma expr_not t : expr_start t = true -> t <> TRc /\ t <> TEnd /\ t <> TSemicolon /\ t <> TRp /\ t <> TRb /\ t <> TColon /\ t <> TPipeEnd.
Proof. intros H. repeat split; intros ->; discriminate H. Qed.
Lemma sem_next_statement ns ts e ts2 es : firsts Stmt ts [e] -> sem Stmt ns ts [e] -> firsts Stmts ts2 es -> sem Stmts ns ts2 es -> apart 16 ts2 -> sem Stmts ns (ts ++ ts2) (e :: es).
Proof.
  intros HF H HF2 H2 HA2 term HT acc c0 ds c rest S HR. norm S. destruct (firsts_one HF eq_refl) as [Hne Hf]. cbn [first] in Hf. apply expr_not in Hf. destruct Hf as (F1 & F2 & _).
  apply ends_rec. cbn [body]. unfold statements_body. g1. rewrite (tok_of_app _ Hne), (shown_not m F2). destruct (tok_eqb_spec (tok_of ts) term) as [X|_]; [destruct HT as [?|[? ?]]; congruence|].
  assert (HA : apart 16 (ts2 ++ rest)). { destruct ts2; [|exact HA2]. cbn [app]. destruct rest as [|k r]; [exact Logic.I|]. cbn [apart]. cbn [tok_of] in HR. rewrite HR. destruct HT as [?|[? _]]; subst; exact Logic.I. }
  call1 H; [exact HA|]. g1. 
  assert (X : tok_of (ts2 ++ rest) <> TSemicolon). { destruct HF2 as [[_ ->]|[Hn2 Hf2]]; [cbn [app]; rewrite HR; destruct HT as [?|[? _]]; subst; discriminate|]. rewrite (tok_of_app _ Hn2). cbn [first] in Hf2. apply expr_not in Hf2. tauto. }
  destruct (tok_eqb_spec (tok_of (ts2 ++ rest)) TSemicolon) as [Y|_]; [congruence|]. g. eapply ends_imp; [eapply (H2 term HT (acc ++ [e0])); [eassumption|exact HR]|].
  intros l c9 (S9 & l1 & -> & El). split; [sd|]. exists (e0 :: l1). rewrite <- app_assoc. split; [reflexivity|]. cbn. congruence.
Qed.
Lemma sem_semicolon ns ts e k ts2 es : firsts Stmt ts [e] -> sem Stmt ns ts [e] -> is TSemicolon k -> sem Stmts ns ts2 es -> sem Stmts ns (ts ++ k :: ts2) (e :: es).
Proof.
  unis. intros HF H Hk H2 term HT acc c0 ds c rest S HR. norm S. destruct (firsts_one HF eq_refl) as [Hne Hf]. cbn [first] in Hf. apply expr_not in Hf. destruct Hf as (F1 & F2 & _).
  apply ends_rec. cbn [body]. unfold statements_body. g1. rewrite (tok_of_app _ Hne), (shown_not m F2). destruct (tok_eqb_spec (tok_of ts) term) as [X|_]; [destruct HT as [?|[? ?]]; congruence|].
  call1 H; [stop|]. g. eapply ends_imp; [eapply (H2 term HT (acc ++ [e0])); [eassumption|exact HR]|].
  intros l c9 (S9 & l1 & -> & El). split; [sd|]. exists (e0 :: l1). rewrite <- app_assoc. split; [reflexivity|]. cbn. congruence.
Qed.
(** the statements of a block or of the source *)
Lemma sem_statements prev ns ts es out term c0 ds c rest : sem Stmts ns ts es -> statements es out -> term = TRc \/ term = TEnd /\ embedded m = false -> tok_of rest = term ->
  st c0 ds ns (ts ++ rest) c -> curp o m prev ns (ts ++ rest) c -> (forall k r, ts ++ rest = k :: r -> dropping prev k) ->
  ends (fun r => r expr (FParse term false)) c (fun e1 c1 => st c0 (ds ++ flat_map defs out) ns rest c1 /\ strip e1 = EBlock z out).
Proof.
  intros H HS HT HR S HP Hprev. apply ends_rec. cbn [body]. unfold parse_body. 
  assert (Hone : forall k, ts ++ rest = [k] -> embedded m = false).
  { intros k Ek. destruct HT as [HT|[_ HT]]; [|exact HT]. rewrite Ek in HP. destruct HP as (_ & _ & _ & _ & _ & _ & HP & _). cbn in HP. destruct rest as [|k' rest]; [cbn in HR; congruence|].
    destruct ts as [|? ts]; [|destruct ts; discriminate Ek]. injection Ek as -> ->. cbn in HR. congruence. }
  destruct (skip_ok Hfac Hm HP Hprev Hone) as (r & q & c1 & E1 & P1 & D1 & T1).
  eapply ends_step; [exact E1|]. cbv beta iota. eapply ends_step; [reflexivity|]. cbv beta iota.
  assert (S1 : st c0 ds ns (ts ++ rest) (with_pos q c1)). { destruct S as (_ & Htx & Hd). split; [eexists; exact P1|]. split; [exact (eq_trans T1 Htx)|]. cbn [with_pos c_defs]. rewrite D1. exact Hd. }
  apply ends_bind. eapply ends_imp; [eapply (H term HT []); [exact S1|exact HR]|]. intros l c9 (S9 & l1 & -> & El). cbn [app].
  destruct (transformCalls_ok c9 HS El) as (out1 & E2 & E3). eapply ends_step; [exact E2|]. g. rewrite (defs_statements HS). split; [exact S9|]. cbn [strip]. congruence.
Qed.
Lemma sem_block_braces ns k1 ts k2 es out : is TLc k1 -> sem Stmts ns ts es -> statements es out -> is TRc k2 -> sem Block ns (k1 :: ts ++ [k2]) [EBlock z out].
Proof.
  intros H1 H HS H2 e E. injection E as <-. split; [eauto|]. exists k1, ts, k2. repeat (split; [first [reflexivity|assumption]|]). intros c0 ds c rest S P.
  eapply ends_imp; [eapply (@sem_statements (Some TLc) ns ts es out TRc c0 ds c (k2 :: rest)); [exact H|exact HS|left; reflexivity|exact H2|exact S|exact P|unfold dropping; auto]|]. intros e1 c1 K. exact K.
Qed.
End Rules.
