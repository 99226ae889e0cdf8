(** * GrammarTop: Parse of the sources of the grammar *)
From Verif Require Import Base Float Tokens Ast Ctx Locator Lexer Parser Api SpecLex LexCur Evals Ends SpecGrammar SpecManifest GrammarBase GrammarFirst GrammarTree GrammarSem GrammarExprs GrammarStmts GrammarMain SpliceProof FuelMono.
From Coq Require Import Lia.

Section Top.
Variables (o : opts) (n0 : nat).
Local Notation m := (top o n0).
Hypothesis Hplain : manifests o.
Let Hepp : o_epp o = false := proj1 Hplain.
Let Hfac : o_factory o = true := proj2 Hplain.
Let Hm : lawful o m := @splices_lawful o n0 false Hfac.

Lemma top_ends single ks (Q : expr -> ctx -> Prop) : stream o m None None ks ->
  (forall c, curp o m None [] ks c -> c_defs c = [] -> c_text c = render ks -> ends (fun r => r expr (FParse TEnd single)) c Q) ->
  ends (fun r => parseTop r single) (start_ctx (render ks) (createParser o)) Q.
Proof.
  intros HS HK. unfold parseTop. eapply ends_step; [reflexivity|]. cbn [start_ctx createParser c_opts]. rewrite Hepp. cbv iota.
  apply ends_bind. destruct (@first_ok o m Hfac Hm ks (start_ctx (render ks) (createParser o)) eq_refl eq_refl eq_refl eq_refl eq_refl eq_refl HS eq_refl) as (c1 & E1 & E2 & E3 & E4).
  eapply ends_ev; [exact E1|]. apply HK; [exact E2|rewrite E3; reflexivity|rewrite E4; reflexivity].
Qed.
Lemma manifest_at ts k es out' : stream o m None None (ts ++ [k]) -> k_tok k = TEnd -> D (o_workflow o) [] Stmts ts es -> statements es out' ->
  parses o (render (ts ++ [k])) false (program out').
Proof.
  intros HS Hk HD HSt.
  assert (X : ends (fun r => parseTop r false) (start_ctx (render (ts ++ [k])) (createParser o))
    (fun e1 c1 => strip e1 = EBlock z out' /\ map strip (c_defs c1) = flat_map defs out' /\ c_names c1 = [])).
  { apply top_ends; [exact HS|]. intros c P Hd Ht. pose proof (st_refl P) as S. 
    eapply ends_imp; [eapply (@sem_statements o m Hfac Hm None [] ts es out' TEnd c [] c [k]); [apply (@D_sem o m Hfac Hm); [exact HD|exact Logic.I]|exact HSt|auto|exact Hk|exact S|exact P|intros ? ? _; left; reflexivity]|].
    - intros e1 c1 [S1 E1]. cbn [app] in S1. split; [exact E1|]. pose proof (st_names S1) as N1. destruct S1 as (_ & _ & ds1 & D1 & D2). rewrite Hd in D1. cbn [app] in D1. rewrite D1. auto. }
  destruct X as (e1 & c1 & (n1 & HE) & E1 & E2 & E3). exists (EProgram (mkpos 0 (c_pos c1)) e1 (c_defs c1)), n1. split.
  - intros n Hn. unfold parse, parse_run. rewrite (HE n Hn). reflexivity.
  - cbn [strip]. unfold program. congruence.
Qed.
Lemma expression_at ts k e' : stream o m None None (ts ++ [k]) -> k_tok k = TEnd -> D (o_workflow o) [] Rel ts [e'] -> parses o (render (ts ++ [k])) true e'.
Proof.
  intros HS Hk HD.
  assert (X : ends (fun r => parseTop r true) (start_ctx (render (ts ++ [k])) (createParser o)) (fun e1 c1 => strip e1 = e')).
  { apply top_ends; [exact HS|]. intros c P Hd Ht. apply ends_rec. cbn [body]. unfold parse_body.
    destruct (skip_ok Hfac Hm P (fun _ _ _ => or_introl eq_refl) (fun _ _ => eq_refl)) as (r & q & c1 & E1 & P1 & D1 & T1).
    eapply ends_step; [exact E1|]. cbv beta iota. eapply ends_step; [reflexivity|]. cbv beta iota.
    pose proof (st_refl P1) as S. destruct (firsts_one (D_firsts HD Logic.I) eq_refl) as [Hne Hf].
    apply (ends_cur S). destruct ts as [|k1 ts]; [congruence|]. cbn [app tok_of] in *.
    destruct (tok_eqb_spec (k_tok k1) TEnd) as [E|E]; [rewrite E in Hf; discriminate|].
    assert (Hsh : shown m (k_tok k1) = k_tok k1) by (destruct (k_tok k1); reflexivity). rewrite Hsh. destruct (tok_eqb_spec (k_tok k1) TEnd) as [E'|_]; [now destruct E|].
    apply ends_bind. eapply (@D_sem o m Hfac Hm [] Rel (k1 :: ts) [e'] HD Logic.I e' eq_refl); [exact S|cbn [apart]; unfold stops; rewrite Hk; exact Logic.I|].
    intros e1 c9 S9 Ee Ea. apply stop_rel with (m := m) (rest := [k]) (c0 := with_pos q c1) (ds := [] ++ defs e') (ns := []) (o := o); [exact Hfac|exact S9|cbn [apart]; unfold stops; rewrite Hk; exact Logic.I|].
    apply (ends_assert S9); [cbn [tok_of]; rewrite Hk; reflexivity|]. apply ends_ret. exact Ee. }
  destruct X as (e1 & c1 & (n1 & HE) & E1). exists e1, n1. split; [|exact E1].
  intros n Hn. unfold parse, parse_run. rewrite (HE n Hn). reflexivity.
Qed.
End Top.
Theorem manifest_parses o source out : manifests o -> manifest o source out -> parses o source false (program out).
Proof. intros HP [n ts k es out' HS Hk HD HSt]. exact (manifest_at HP HS Hk HD HSt). Qed.
Theorem expression_parses o source e : manifests o -> expression o source e -> parses o source true e.
Proof. intros HP [n ts k e' HS Hk HD]. exact (expression_at HP HS Hk HD). Qed.
Lemma parses_unique o source single e1 e2 : parses o source single e1 -> parses o source single e2 -> e1 = e2.
Proof.
  intros (a & n & Ha & <-) (b & m & Hb & <-). specialize (Ha (Nat.max n m) ltac:(lia)). specialize (Hb (Nat.max n m) ltac:(lia)). congruence.
Qed.
Lemma not_name n m o s single r x e : parse m o s single = r -> r <> PFuel -> (forall e, r = POk e -> strip e <> x) -> parse n o s single = POk e -> strip e <> x.
Proof.
  intros E Hr HX H. apply HX. rewrite <- H, <- E. unfold parse in *. rewrite (@parse_run_unique m n); [reflexivity| |]; intros X; rewrite X in *; [now apply Hr|discriminate].
Qed.
