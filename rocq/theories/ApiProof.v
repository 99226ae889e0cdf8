(** * ApiProof: proofs of C40, C41 *)
From Verif Require Import Base Float Tokens Ast Pn ToPN Ctx Locator Lexer Parser Literal Visit Validator Api.

(** ** C41 *)
Lemma maxSeverity_ge l : forall m, m <= fold_left (fun m i => if m <? severity_num (i_sev i) then severity_num (i_sev i) else m) l m.
Proof.
  induction l as [|i l IH]; intros m; cbn [fold_left]; [lia|].
  destruct (Z.ltb_spec m (severity_num (i_sev i))); [|apply IH]. specialize (IH (severity_num (i_sev i))). lia.
Qed.
Lemma severity_num_le v : 1 <= severity_num v <= 4.
Proof. destruct v; cbn; lia. Qed.
Lemma maxSeverity_error l : (maxSeverity l =? severity_num SevError) = true <-> exists i, In i l /\ i_sev i = SevError.
Proof.
  unfold maxSeverity. rewrite Z.eqb_eq. change (severity_num SevError) with 4.
  assert (HG: forall m, 1 <= m <= 4 -> fold_left (fun m i => if m <? severity_num (i_sev i) then severity_num (i_sev i) else m) l m = 4
     <-> m = 4 \/ exists i, In i l /\ i_sev i = SevError).
  { induction l as [|i l IH]; intros m Hm; cbn [fold_left].
    - split; [now left|]. intros [?|(i & [] & _)]; assumption.
    - pose proof (severity_num_le (i_sev i)). destruct (Z.ltb_spec m (severity_num (i_sev i))).
      + rewrite IH by lia. split.
        * intros [E|(j & Hj & Ej)]; right; [exists i; split; [now left|]|exists j; split; [now right|assumption]].
          destruct (i_sev i); cbn in E; try lia; reflexivity.
        * intros [E|(j & [<-|Hj] & Ej)]; [lia|left; now rewrite Ej|right; eauto].
      + rewrite IH by lia. split.
        * intros [E|(j & Hj & Ej)]; [now left|right; exists j; split; [now right|assumption]].
        * intros [E|(j & [<-|Hj] & Ej)]; [now left| |right; eauto]. rewrite Ej in *. cbn in *. left. lia. }
  rewrite HG by lia. split; [intros [?|?]; [lia|assumption]|now right].
Qed.

Definition parse_failed (r : presult) : Prop := match r with PReported _ | PParseError _ => True | _ => False end.

Ltac fin := repeat (match goal with
  | |- _ <-> _ => split
  | |- _ /\ _ => split
  | |- forall _, _ => intro
  | H : _ /\ _ |- _ => destruct H
  | H : _ \/ _ |- _ => destruct H
  | H : exists _, _ |- _ => destruct H
  | H : POk _ = POk _ |- _ => injection H; clear H; intros; subst
  | H : parse_failed (POk _) |- _ => destruct H
  end); try congruence; try discriminate; try exact I.
Theorem cli_status fuel c isL source st pe issues ast :
  cli fuel c isL source = Exit st pe issues ast ->
  let r := parse fuel (cli_parseopts c isL) source false in
  (st = 1 \/ st = 0)
  /\ (pe = true <-> parse_failed r)
  /\ (st = 1 <-> parse_failed r \/
        exists e l i, r = POk e /\ validatePuppet source (cli_strict c) e = inl l /\ In i l /\ i_sev i = SevError)
  /\ (forall q, ast = Some q <-> st = 0 /\ cli_validateOnly c = false /\ exists e, r = POk e /\ toPN e = Some q)
  /\ (forall e, r = POk e -> validatePuppet source (cli_strict c) e = inl issues).
Proof.
  intros H r. unfold cli in H. fold r in H. destruct r as [e|e|off|s|] eqn:Er; try discriminate.
  - destruct (validatePuppet source (cli_strict c) e) as [l|] eqn:Ev; [|discriminate].
    destruct (maxSeverity l =? severity_num SevError) eqn:Em.
    + injection H as <- <- <- <-. apply maxSeverity_error in Em. destruct Em as (i & Hi & Hs).
      fin; [now left|]. right. exists e, l, i. auto.
    + assert (Hn: forall i, In i l -> i_sev i <> SevError).
      { intros i Hi Hs.
        assert ((maxSeverity l =? severity_num SevError) = true) by (apply maxSeverity_error; eauto). congruence. }
      destruct (cli_validateOnly c) eqn:Eo.
      * injection H as <- <- <- <-. fin; [now right|].
        match goal with H1 : In ?x ?m, H2 : _ = inl ?m |- _ => rewrite Ev in H2; injection H2 as <-; exfalso; eapply Hn; eauto end.
      * destruct (toPN e) as [q|] eqn:Eq; [|discriminate]. injection H as <- <- <- <-.
        fin; [now right| |exists e; split; congruence].
        match goal with H1 : In ?x ?m, H2 : _ = inl ?m |- _ => rewrite Ev in H2; injection H2 as <-; exfalso; eapply Hn; eauto end.
  - injection H as <- <- <- <-. fin; left; (exact I || reflexivity).
  - injection H as <- <- <- <-. fin; left; (exact I || reflexivity).
Qed.

(** the status does not depend on -v *)
Theorem cli_validate_only fuel v1 v2 st t w ep isL source x1 pe1 i1 a1 x2 pe2 i2 a2 :
  cli fuel (mkcli v1 st t w ep) isL source = Exit x1 pe1 i1 a1 ->
  cli fuel (mkcli v2 st t w ep) isL source = Exit x2 pe2 i2 a2 ->
  x1 = x2 /\ pe1 = pe2 /\ i1 = i2.
Proof.
  unfold cli. cbn [cli_strict cli_validateOnly cli_parseopts cli_epp cli_tasks cli_workflow].
  change (cli_parseopts {| cli_validateOnly := v1; cli_strict := st; cli_tasks := t; cli_workflow := w; cli_epp := ep |} isL)
    with (cli_parseopts {| cli_validateOnly := v2; cli_strict := st; cli_tasks := t; cli_workflow := w; cli_epp := ep |} isL).
  destruct (parse _ _ _ _); try congruence; try discriminate.
  - destruct (validatePuppet source st e) as [l|]; [|discriminate].
    destruct (maxSeverity l =? severity_num SevError); [intros H1 H2; injection H1 as <- <- <- <-; injection H2 as <- <- <- <-; auto|].
    destruct (toPN e); destruct v1, v2; try discriminate; intros H1 H2; injection H1 as <- <- <- <-; injection H2 as <- <- <- <-; auto.
  - intros H1 H2; injection H1 as <- <- <- <-; injection H2 as <- <- <- <-; auto.
  - intros H1 H2; injection H1 as <- <- <- <-; injection H2 as <- <- <- <-; auto.
Qed.

(** ** C40 *)
Theorem parserValidator_correct k s r source :
  (forall e, parserValidator k s r source = PvParseIssue e <-> r = PReported e)
  /\ (forall e, parserValidator k s r source = PvOk e <-> r = POk e /\ validate k source s e = inl [])
  /\ (forall e l, parserValidator k s r source = PvIssues e l <-> r = POk e /\ validate k source s e = inl l /\ l <> [])
  /\ (parserValidator k s r source = PvCrash <->
      (exists off, r = PParseError off) \/ (exists p, r = PCrash p)
      \/ (exists e p, r = POk e /\ validate k source s e = inr p)).
Proof.
  destruct r as [e|e|off|p|]; cbn [parserValidator].
  - destruct (validate k source s e) as [[|i l]|p] eqn:Ev; fin;
    repeat match goal with
      | H : PvIssues _ _ = PvIssues _ _ |- _ => injection H; clear H; intros; subst
      | H : PvOk _ = PvOk _ |- _ => injection H; clear H; intros; subst
    end; try congruence; try discriminate.
    right; right; eauto.
  - fin.
  - fin. left. eauto.
  - fin. right; left; eauto.
  - fin.
Qed.
