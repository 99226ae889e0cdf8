(** * PosMain: every function of the parser ends, and errors are located in the text *)
From Verif Require Import Base Float Tokens Ast Ctx Locator Lexer Parser Utf8Facts PosBase PosLex PosSpec PosTok PosParse PosBodies.
From Coq Require Import Lia ZifyBool.

Section Main.
Variable T : str.
Notation L := (LT T).
Lemma adv_range b c : okc T b c -> 0 <= kc T c /\ kc T c <= KM L /\ adv T c <= AM T /\ 0 <= adv T c.
Proof.
  intros [_ (R1 & R2 & R3)]. pose proof (@ky_range T (c_pos c) (c_nls c) R1). unfold adv, AM. fold (kc T c) in H.
  pose proof (weight_range (c_tok c)). lia.
Qed.
Lemma rank_pos A (f : fn A) : 1 <= rank f.
Proof. destruct f; cbn; try lia; try (destruct (_ =? 0); lia). destruct l; cbn; lia. Qed.
Lemma bound_pos A (f : fn A) b c : okc T b c -> 1 <= bound T f c.
Proof.
  intros H. pose proof (adv_range H). pose proof (@rank_pos A f). unfold bound. destruct (is_lexer f); unfold AM in *; lia.
Qed.

Lemma respects_0 : respects T 0 (run 0).
Proof. intros A f c H _. cbn. pose proof (@bound_pos A f _ c H). lia. Qed.

(** the state after a function, from the one its body lemma gives *)
Lemma post_ge q0 c q' c' : of_ctx c = q0 -> Sq T q' c' -> rel T q0 false q' -> okc T true c' /\ ge T c c'.
Proof.
  intros E S R. pose proof (Sq_of S) as E'. split; [eapply Sq_okc; [exact S|apply R]|].
  change (geq T (of_ctx c) (of_ctx c')). rewrite E, E'. now apply rel_false with (b := false).
Qed.
Lemma post_more q0 c q' c' : of_ctx c = q0 -> Sq T q' c' -> rel T q0 true q' -> okc T true c' /\ more T c c'.
Proof.
  intros E S R. pose proof (Sq_of S) as E'. split; [eapply Sq_okc; [exact S|apply R]|].
  change (moreq T (of_ctx c) (of_ctx c')). rewrite E, E'. now apply rel_true.
Qed.
Ltac m_bound := unfold PosParse.BC, bound; cbn [is_lexer rank]; try lia.
Ltac m_ge := match goal with S : Sq T ?q' ?c', R : rel T _ false ?q' |- _ => destruct (@post_ge _ _ q' c' eq_refl S R) as [? ?] end.
Ltac m_more := match goal with S : Sq T ?q' ?c', R : rel T _ true ?q' |- _ => destruct (@post_more _ _ q' c' eq_refl S R) as [? ?] end.

Ltac m_back := let a := fresh "a" in let q' := fresh "q'" in let c' := fresh "c'" in let G := fresh "G" in let B := fresh "B" in let R := fresh "R" in let S := fresh "S" in let K := fresh "K" in
  intros a q' c' G B R S; m_more; split; [assumption|]; split; [assumption|]; split; [assumption|]; intros K; specialize (B K); rewrite (S_rs S); exact B.
Ltac m_loop := let a := fresh "a" in let q' := fresh "q'" in let c' := fresh "c'" in let G := fresh "G" in let B := fresh "B" in let R := fresh "R" in let S := fresh "S" in let K := fresh "K" in
  intros a q' c' G B R S; m_ge; split; [assumption|]; split; [assumption|]; split; [assumption|]; intros K; destruct (B K) as [? ->]; split; [assumption|exact (Sq_of S)].
Lemma respects_S n : respects T n (run n) -> respects T (S n) (run (S n)).
Proof.
  intros HR A f c Ho Ha. cbn [run].
  destruct (is_lexer f) eqn:EL.
  - assert (Z.of_nat (S n) = Z.of_nat n + 1) as -> by lia.
    destruct f; try discriminate EL; cbn [body needs gives is_lexer negb] in *.
    + pose proof Ho as [Hs (R1 & R2 & R3)]. eapply r_nextToken_body with (BC := bound T FNextToken c); [exact HR|exact Hs|exact R1|exact R2|unfold bound; cbn [is_lexer rank]; fold (kc T c); lia|].
      intros p' v' t' s' RR K1 K2 K3 K4 c' Hs'. split; [eapply S_okc; eauto|]. cbn [post]. rewrite (S_kc Hs'), (S_rs Hs'), (S_tok Hs'). unfold vn. rewrite (S_nls Hs'). auto.
    + pose proof Ho as [Hs (R1 & R2 & R3)]. destruct Ha as (A1 & A2 & A3 & A4).
      eapply r_delim_body with (BC := bound T (FDelim _ _ _ _ _ _ _) c); [exact HR|exact Hs|exact (conj R1 (conj R2 R3))|exact A1|exact A2|exact A3|exact A4|unfold bound; cbn [is_lexer rank]; fold (kc T c); lia|].
      intros a p' v' t' s' G P c' Hs'. split; [eapply S_okc; [exact Hs'|apply P]|]. cbn [post]. split; [|exact G]. eapply prog_geL; eauto.
    + pose proof Ho as [Hs (R1 & R2 & R3)]. destruct Ha as (A1 & A2 & A3).
      eapply r_apply_body with (BC := bound T (FApply _ _ _ _ _ _ _) c); [exact HR|exact Hs|exact (conj R1 (conj R2 R3))|exact A1|exact A2|exact A3|unfold bound; cbn [is_lexer rank]; fold (kc T c); lia|].
      intros a p' v' t' s' G P K c' Hs'. split; [eapply S_okc; [exact Hs'|apply P]|]. cbn [post]. split; [eapply prog_geL; eauto|]. split; [exact G|].
      rewrite (S_tsp Hs'), (S_rs Hs'). exact K.
  - assert (Z.of_nat (S n) = Z.of_nat n + 1) as -> by lia.
    unfold needs in Ho. rewrite EL in Ho. cbn [negb] in Ho. destruct (okc_Sq Ho) as [Hs Hq].
    assert (HR5: 5 <= rank f) by (destruct f; try discriminate EL; cbn; try lia; destruct l; cbn; lia).
    eapply wpf_bound with (B := Z.of_nat n + 1 < BC T (of_ctx c) (rank f)).
    2:{ unfold bound, BC. rewrite EL. change (adv T c) with (aq T (of_ctx c)). lia. }
    assert (GV: gives f = true) by (destruct f; try discriminate EL; reflexivity). rewrite GV.
    destruct f; try discriminate EL; cbn [body rank] in *; cbn [post].
    + eapply b_parse; [exact HR|exact Hq|lia|exact Hs|lia|]. intros. m_ge. auto.
    + eapply b_statements; [exact HR|exact Hq|lia|exact Hs|lia|]. intros. m_ge. auto.
    + eapply b_commas; [exact HR|exact Hq|lia|exact Hs|]. intros. m_ge. auto.
    + eapply b_expressions; [exact HR|exact Hq|lia|exact Hs|lia|]. intros. m_ge. split; [assumption|]. split; [assumption|]. rewrite (S_tok H1). assumption.
    + eapply b_relationship; [exact HR|exact Hq|lia|exact Hs|lia|]. intros. m_more. auto.
    + eapply b_relLoop; [exact HR|exact Hq|lia|exact Hs|exact Ha|]. intros. m_ge. auto.
    + eapply b_assignment; [exact HR|exact Hq|lia|exact Hs|lia|]. intros. m_more. auto.
    + eapply b_assignLoop; [exact HR|exact Hq|lia|exact Hs|exact Ha|]. intros. m_ge. auto.
    + eapply b_expression; [exact HR|exact Hq|lia|exact Hs|lia|]. m_back.
    + eapply b_selectLoop; [exact HR|exact Hq|lia|exact Hs|]. m_loop.
    + eapply b_level; [exact HR|exact Hq|lia|exact Hs|lia|]. m_back.
    + eapply b_levelLoop; [exact HR|exact Hq|lia|exact Hs|]. m_loop.
    + eapply b_unary; [exact HR|exact Hq|lia|exact Hs|lia|]. m_back.
    + eapply b_primary; [exact HR|exact Hq|lia|exact Hs|lia|]. m_back.
    + eapply b_primaryLoop; [exact HR|exact Hq|lia|exact Hs|lia|]. m_loop.
    + eapply b_atom; [exact HR|exact Hq|lia|exact Hs|lia|]. m_back.
    + eapply b_call; [exact HR|exact Hq|lia|exact Hs|exact Ha|]. intros. m_more. auto.
    + eapply h_paramTypeBody; [exact HR|exact Hq|lia|exact Hs|apply rel_refl; exact Hq|]. intros. m_more. auto.
    + eapply b_if; [exact HR|exact Hq|lia|exact Hs|exact Ha|]. intros. m_more. auto.
    + eapply b_caseOptions; [exact HR|exact Hq|lia|exact Hs|lia|]. intros. m_ge. auto.
    + eapply b_resource; [exact HR|exact Hq|lia|exact Hs|exact Ha|]. intros. m_more. auto.
    + eapply b_bodies; [exact HR|exact Hq|lia|exact Hs|destruct title; exact Ha|]. intros. m_ge. auto.
    + eapply b_attrOps; [exact HR|exact Hq|lia|exact Hs|]. intros. m_ge. auto.
    + eapply b_hostnames; [exact HR|exact Hq|lia|exact Hs|lia|]. intros. m_ge. auto.
    + eapply b_dotted; [exact HR|exact Hq|lia|exact Hs|exact Ha|]. intros. m_more. auto.
    + eapply b_activities; [exact HR|exact Hq|lia|exact Hs|lia|]. intros. m_ge. auto.
    + eapply b_stepDecl; [exact HR|exact Hq|lia|exact Hs|exact Ha|]. intros. m_more. auto.
    + eapply b_eppLoop; [exact HR|exact Hq|lia|exact Hs|lia|]. intros. m_ge. auto.
Qed.
Theorem respects_run n : respects T n (run n).
Proof. induction n as [|n IH]; [apply respects_0|now apply respects_S]. Qed.
End Main.
