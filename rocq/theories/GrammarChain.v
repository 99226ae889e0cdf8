(** * GrammarChain: the rules of the grammar, arguments, attributes, calls, indexes, methods and collectors *)
From Verif Require Import Base Float Tokens Ast Ctx Locator Lexer Parser SpecLex ReaderProof Utf8Facts LexBase GapProof LocatorProof LexTokens LexCur Evals Ends SpecGrammar GrammarBase GrammarFirst GrammarTree GrammarSem GrammarAtoms GrammarExprs GrammarStmts GrammarLists.
From Coq Require Import Lia ZifyBool.

Section Rules.
Variables (o : opts) (m : mode).
Hypothesis Hfac : o_factory o = true.
Hypothesis Hm : lawful o m.
Notation st := (st o m).
Notation sem := (sem o m).
Notation sem1 := (sem1 o m).
Notation semL := (semL o m).
Notation semC := (semC o m).
Notation semO := (semO o m).
Notation listed := (listed o m).
Notation rel_done := (@rel_done o m Hfac).
Notation sem_braces := (@sem_braces o m Hfac Hm).
Notation call_ok := (@call_ok o).

(** ** Words as arguments and keys *)
Lemma sem_handle ns k ts e : ~ In (k_tok k) soft_words -> sem Rel ns (k :: ts) [e] -> sem Handle ns (k :: ts) [e].
Proof.
  intros Hn H. apply rel_done in H. one. unfold handleKeyword. g1. cbn [tok_of].
  apply (@ends_same _ _ (fun r => r expr FRelationship)); [intros r; unfold soft_words in Hn; destruct (k_tok k); cbn [shown]; try reflexivity; first [destruct (embedded m); reflexivity|exfalso; apply Hn; cbn; tauto]|].
  rewrite app_comm_cons in S. call1 H; [exact HA|]. auto.
Qed.
Ltac soft H := unfold soft_words in H; cbn [In] in H; repeat (destruct H as [H|H]; [symmetry in H|]); try contradiction.
Lemma sem_word ns k w : In (k_tok k) soft_words -> k_val k = VStr w -> sem Handle ns [k] [EQName z w].
Proof.
  intros Hs Hv. one. unfold handleKeyword. pose proof (apart_tok HA) as HT. soft Hs; g; (destruct (tok_eqb_spec (tok_of rest) TLp) as [X|_]; [rewrite X in HT; cbn in HT; lia|]; g; fin).
Qed.
Lemma sem_word_call ns k w ts2 args ts3 l : firsts Args ts2 args -> few l -> In (k_tok k) soft_words -> k_val k = VStr w -> sem Args ns ts2 args -> sem OptLambda ns ts3 l ->
    sem Handle ns (k :: ts2 ++ ts3) [ECallNamed z true (EQName z w) args (hd_error l)].
Proof.
  intros HF Fl Hs Hv H2 H3. one. unfold handleKeyword. destruct (firsts_one HF eq_refl) as [Hne Hf]. cbn [first] in Hf. apply tok_eqb_eq in Hf.
  pose proof (apart_tok HA) as HT. assert (HP : ts3 = [] -> tok_of rest <> TPipe) by (intros _ X; rewrite X in HT; cbn in HT; lia).
  soft Hs; g; (rewrite (tok_of_app _ Hne), Hf; red_tok; eapply ends_imp; [eapply (call_ok _ HF Fl H2 H3); [eassumption|exact HP]|]; intros e1 c9 (S9 & E9 & A9); cbn [strip call] in E9; fin; exact A9).
Qed.
Lemma closed_not t rest : closed rest -> tok_of rest = t -> t = TComma \/ t = TRp \/ t = TRb \/ t = TRc \/ t = TPipeEnd \/ t = TColon \/ t = TSemicolon.
Proof. unfold closed, closing. cbn [In]. intros H <-. intuition auto. Qed.
Lemma sem_argument ns ts e : sem Handle ns ts [e] -> sem Arg ns ts [e].
Proof.
  intros H. one. unfold argument. call1 H; [apply closed_apart; [exact HA|lia]|]. g1. destruct (tok_eqb_spec (tok_of rest) TFarrow) as [X|_].
  { pose proof (closed_not HA X). intuition discriminate. } g. fin. exact A.
Qed.
Lemma sem_entry ns ts1 a k ts2 b : sem Handle ns ts1 [a] -> is TFarrow k -> sem Handle ns ts2 [b] -> sem Entry ns (ts1 ++ k :: ts2) [EKeyed z a b].
Proof.
  intros H1 Hk H2. split; one; [unfold argument|unfold keyedEntry]; (call1 H1; [stop|]; g; call1 H2; [apply closed_apart; [exact HA|lia]|]; g; fin).
Qed.
(** ** Attributes *)
Lemma keyword_attr k n : attribute_name k n -> (k_tok k = TIdentifier /\ k_val k = VStr n) \/ (keyword (k_tok k) = Some n /\ k_tok k <> TIdentifier /\ k_tok k <> TMultiply /\ k_tok k <> TEnd).
Proof.
  intros [H|(w & -> & HI)]; [auto|]. right. cbn [In] in HI. unfold reserved in HI. cbn [In] in HI.
  repeat (destruct HI as [HI|HI]; [injection HI as <- <-; repeat split; try reflexivity; discriminate|]). destruct HI.
Qed.
Lemma identifier_ok B (kk : recT -> option str -> M B) c0 ds ns k rest c n Q : attribute_name k n -> st c0 ds ns (k :: rest) c ->
  (forall c1, st c0 ds ns rest c1 -> ends (fun r => kk r (Some n)) c1 Q) -> ends (fun r => bind (identifier r) (kk r)) c Q.
Proof.
  intros HN S HK. unfold identifier. apply ends_bind. destruct (keyword_attr HN) as [[Ht Hv]|(Hk & Hi & Hmu & He)].
  - g. apply HK. assumption.
  - g1. g1. cbn [tok_of]. destruct (tok_eqb_spec (k_tok k) TIdentifier) as [X|_]; [congruence|]. rewrite Hk. g. apply HK. assumption.
Qed.
Lemma sem_splat_attrs ns k1 k2 ts e : is TMultiply k1 -> is TFarrow k2 -> sem Expression ns ts [e] -> sem AttrOp ns (k1 :: k2 :: ts) [EAttrsOp z e].
Proof. intros H1 H2 H. one. unfold attributeOperation. g. call1 H; [exact HA|]. g. fin. Qed.
Lemma sem_attr ns k1 n k2 s ts e : attribute_name k1 n -> In (k_tok k2, s) [(TFarrow, "=>"); (TParrow, "+>")]%string -> k_val k2 = VNil -> sem Expression ns ts [e] ->
    sem AttrOp ns (k1 :: k2 :: ts) [EAttrOp z (lit s) n e].
Proof.
  intros HN HI Hv H. one. unfold attributeOperation. g1. g1. assert (X : tok_eqb (k_tok k1) TMultiply = false).
  { destruct (tok_eqb_spec (k_tok k1) TMultiply) as [X|_]; [|reflexivity]. destruct (keyword_attr HN) as [[Ht _]|(_ & _ & Hmu & _)]; congruence. }
  cbn [tok_of]. rewrite X. cbv iota. eapply (identifier_ok HN S). intros c1 S1. clear S. cbv beta iota. cbn [In] in HI. destruct HI as [HI|[HI|[]]]; injection HI as Ht Hs; symmetry in Ht;
    (g1; eapply (ends_string S1 (s := lit s)); [right; split; [exact Hv|rewrite Ht, <- Hs; reflexivity]|]; g; call1 H; [exact HA|]; g; fin).
Qed.
(** ** Chains *)
Lemma chain_atom ns ts e : sem Atom ns ts [e] -> sem Chain ns ts [e].
Proof.
  intros H e' E c0 ds c rest Q S [HA HP] HK. injection E as <-. apply ends_rec. cbn [body]. unfold primary_body. call1 H; [exact HA|]. eapply HK; eassumption.
Qed.
Lemma complete_none e args rest : (tok_of rest = TPipe -> complete (call e args None)) -> tok_of rest <> TPipe.
Proof. intros H X. specialize (H X). destruct e; cbn in H; try contradiction. destruct k; contradiction. Qed.
Lemma chain_call ns ts1 e ts2 args ts3 l : firsts Args ts2 args -> few l -> sem Chain ns ts1 [e] -> sem Args ns ts2 args -> sem OptLambda ns ts3 l -> sem Chain ns (ts1 ++ ts2 ++ ts3) [call e args (hd_error l)].
Proof.
  intros HF Fl H1 H2 H3 e' E c0 ds c rest Q S [HA HP] HK. injection E as <-. norm S. destruct (firsts_one HF eq_refl) as [Hne Hf]. cbn [first] in Hf. apply tok_eqb_eq in Hf.
  eapply H1; [reflexivity|exact S| |].
  - rewrite (tok_of_app _ Hne), Hf. split; [|discriminate]. destruct ts2 as [|k ts2]; [congruence|]. cbn [app apart tok_of] in *. unfold stops. rewrite Hf. cbn. lia.
  - clear S. intros e1 c1 S1 E1 A1. apply ends_rec. cbn [body]. unfold primaryLoop_body. g1. rewrite (tok_of_app _ Hne), Hf. apply ends_bind.
    eapply ends_imp; [eapply (call_ok _ HF Fl H2 H3); [exact S1|]|].
    { intros ->. destruct H3 as [[_ ->]|(l0 & _ & _ & X & _)]; [|congruence]. eapply complete_none. exact HP. }
    intros e2 c2 (S2 & E2 & A2). eapply HK; [rewrite defs_call; sd|congruence|exact A2].
Qed.
Lemma chain_type_call ns k ts2 args ts3 l : firsts Args ts2 args -> few l -> word "type" TType k -> sem Args ns ts2 args -> sem OptLambda ns ts3 l ->
    sem Chain ns (k :: ts2 ++ ts3) [ECallNamed z true (EQName z (lit "type")) args (hd_error l)].
Proof.
  intros HF Fl Hk H2 H3 e' E c0 ds c rest Q S [HA HP] HK. injection E as <-. norm S. destruct (firsts_one HF eq_refl) as [Hne Hf]. cbn [first] in Hf. apply tok_eqb_eq in Hf. unis.
  apply ends_rec. cbn [body]. unfold primary_body. apply ends_bind. apply ends_rec. cbn [body]. unfold atom_body. g1. g1. g1. g1. g1. g1. rewrite (tok_of_app _ Hne), Hf. red_tok. g1. g1.
  apply ends_rec. cbn [body]. unfold primaryLoop_body. g1. rewrite (tok_of_app _ Hne), Hf. apply ends_bind. eapply ends_imp; [eapply (call_ok _ HF Fl H2 H3); [eassumption|]|].
  { intros ->. destruct H3 as [[_ ->]|(l0 & _ & _ & X & _)]; [|congruence]. exact (@complete_none (EQName z (lit "type")) args rest HP). }
  intros e2 c2 (S2 & E2 & A2). eapply HK; [sd|exact E2|exact A2].
Qed.
Lemma chain_lambda ns ts1 e ts2 l : firsts Lambda ts2 [l] -> sem Chain ns ts1 [e] -> complete e -> sem Lambda ns ts2 [l] -> sem Chain ns (ts1 ++ ts2) [call e [] (Some l)].
Proof.
  intros HF H1 HC H2 e' E c0 ds c rest Q S [HA HP] HK. injection E as <-. norm S. destruct (firsts_one HF eq_refl) as [Hne Hf]. cbn [first] in Hf. apply tok_eqb_eq in Hf.
  eapply H1; [reflexivity|exact S| |].
  - split; [|auto]. destruct ts2 as [|k ts2]; [congruence|]. cbn [app apart tok_of] in *. unfold stops. rewrite Hf. cbn. lia.
  - clear S. intros e1 c1 S1 E1 A1. apply ends_rec. cbn [body]. unfold primaryLoop_body. g1. rewrite (tok_of_app _ Hne), Hf. apply ends_bind. apply ends_rec. cbn [body]. unfold call_body. cbv zeta.
    g1. rewrite (tok_of_app _ Hne), Hf. red_tok. g1. cbv beta iota. g1. rewrite (tok_of_app _ Hne), Hf. red_tok. g1. call1 H2; [exact Logic.I|]. g1. cbv beta iota.
    match goal with |- ends _ ?c2 ?Q2 => set (QQ := Q2) end.
    apply (@ends_same _ _ (fun _ : recT => ret (make_call e1 [] (Some e0) (mkpos (byteOffset e1) (byteOffset e0 + byteLength e0 - byteOffset e1))))).
    { intros r. destruct e1; try reflexivity. destruct k; reflexivity. }
    unfold QQ. g. eapply HK; [rewrite defs_call; sd| |destruct e1; try exact Logic.I; destruct k; exact Logic.I]. rewrite strip_call. cbn. congruence.
Qed.
Lemma statement_dec e e1 : strip e1 = e -> (statement_name e <-> (match e1 with EQName _ n => isStatementCall n | _ => false end) = true).
Proof. intros <-. rewrite statement_b. destruct e1; split; intros; try discriminate; try contradiction; auto. Qed.
Lemma chain_index ns ts1 e k1 ts2 es l k2 : sem Chain ns ts1 [e] -> is TLb k1 -> sem (ListOf Arg) ns ts2 es -> grouped es l -> is TRb k2 -> ~ statement_name e ->
    sem Chain ns (ts1 ++ k1 :: ts2 ++ [k2]) [EAccess z e l].
Proof.
  intros H1 Hk1 H2 HG Hk2 HS e' E c0 ds c rest Q S [HA HP] HK. injection E as <-. unis. norm S. eapply H1; [reflexivity|exact S|split; [stop|toks; discriminate]|].
  clear S. intros e1 c1 S1 E1 A1. pose proof (statement_dec E1) as HD. apply ends_rec. cbn [body]. unfold primaryLoop_body. g1. g1. callA H2 HG. g1. cbv zeta. g1.
  destruct (match e1 with EQName _ n => isStatementCall n | _ => false end); [exfalso; apply HS, HD; reflexivity|].
  eapply HK; [sd|cbn [strip]; congruence|]. destruct e1; try exact Logic.I. cbn [anchored] in *. apply A1. exact Hk1.
Qed.
Lemma chain_statement ns ts1 e k1 ts2 es l k2 : sem Chain ns ts1 [e] -> is TLb k1 -> sem (ListOf Arg) ns ts2 es -> grouped es l -> is TRb k2 -> statement_name e ->
    sem Chain ns (ts1 ++ k1 :: ts2 ++ [k2]) [ECallNamed z false e [EList z l] None].
Proof.
  intros H1 Hk1 H2 HG Hk2 HS e' E c0 ds c rest Q S [HA HP] HK. injection E as <-. unis. norm S. eapply H1; [reflexivity|exact S|split; [stop|toks; discriminate]|].
  clear S. intros e1 c1 S1 E1 A1. pose proof (statement_dec E1) as HD. apply ends_rec. cbn [body]. unfold primaryLoop_body. g1. g1. callA H2 HG. g1. cbv zeta. g1.
  destruct (match e1 with EQName _ n => isStatementCall n | _ => false end); [|exfalso; apply HD in HS; discriminate].
  eapply HK; [sd|cbn [strip map option_map]; congruence|exact Logic.I].
Qed.
Lemma chain_dot ns ts1 e k ts2 r : firsts Atom ts2 [r] -> sem Chain ns ts1 [e] -> is TDot k -> sem Atom ns ts2 [r] -> ~ starts TType ts2 ->
    sem Chain ns (ts1 ++ k :: ts2) [EBin z KNamedAccess [] e r].
Proof.
  intros HF H1 Hk H2 HN e' E c0 ds c rest Q S [HA HP] HK. injection E as <-. unis. norm S. destruct (firsts_one HF eq_refl) as [Hne _]. eapply H1; [reflexivity|exact S|split; [stop|toks; discriminate]|].
  clear S. intros e1 c1 S1 E1 A1. apply ends_rec. cbn [body]. unfold primaryLoop_body. g1. g1. g1. rewrite (tok_of_app _ Hne).
  destruct (tok_eqb_spec (tok_of ts2) TType) as [X|_]; [exfalso; apply HN; destruct ts2; [congruence|exact X]|]. call1 H2; [exact HA|]. g. eapply HK; [sd|cbn [strip]; congruence|exact Logic.I].
Qed.
Lemma chain_dot_type ns ts1 e k k2 : sem Chain ns ts1 [e] -> is TDot k -> word "type" TType k2 ->
    sem Chain ns (ts1 ++ [k; k2]) [EBin z KNamedAccess [] e (EQName z (lit "type"))].
Proof.
  intros H1 Hk H2 e' E c0 ds c rest Q S [HA HP] HK. injection E as <-. unis. norm S. eapply H1; [reflexivity|exact S|split; [stop|toks; discriminate]|].
  clear S. intros e1 c1 S1 E1 A1. apply ends_rec. cbn [body]. unfold primaryLoop_body. g. eapply HK; [sd|cbn [strip]; rewrite E1; reflexivity|exact Logic.I].
Qed.
(** ** Collectors *)
Lemma sem_query_empty ns k1 k2 x : is TLcollect k1 /\ is TRcollect k2 /\ x = false \/ is TLlcollect k1 /\ is TRrcollect k2 /\ x = true -> sem Query ns [k1; k2] [EQuery z x (ENop z)].
Proof. intros HK. one. unfold collectQuery. destruct HK as [(H1 & H2 & ->)|(H1 & H2 & ->)]; unis; (g1; g1; cbv zeta; red_tok; g; fin). Qed.
Lemma sem_query ns k1 ts e k2 x : firsts Expression ts [e] -> is TLcollect k1 /\ is TRcollect k2 /\ x = false \/ is TLlcollect k1 /\ is TRrcollect k2 /\ x = true -> sem Expression ns ts [e] ->
    sem Query ns (k1 :: ts ++ [k2]) [EQuery z x e].
Proof.
  intros HF HK H. one. destruct (firsts_one HF eq_refl) as [Hne Hf]. cbn [first] in Hf. unfold collectQuery. destruct HK as [(H1 & H2 & ->)|(H1 & H2 & ->)]; unis; (g1; g1; cbv zeta; red_tok; g1; g1; rewrite (tok_of_app _ Hne)).
  - destruct (tok_eqb_spec (tok_of ts) TRcollect) as [X|_]; [rewrite X in Hf; discriminate Hf|]. g1. call1 H; [stop|]. g. fin.
  - destruct (tok_eqb_spec (tok_of ts) TRrcollect) as [X|_]; [rewrite X in Hf; discriminate Hf|]. g1. call1 H; [stop|]. g. fin.
Qed.
Lemma query_loop ts2 q (e1 : expr) rest c Q : firsts Query ts2 [q] -> (exists c0 ds ns, st c0 ds ns (ts2 ++ rest) c) -> ends (fun r => e' <- collectExpression r e1 ;; r expr (FPrimaryLoop e')) c Q -> ends (fun r => r expr (FPrimaryLoop e1)) c Q.
Proof.
  intros HF (c0 & ds & ns & S) H. destruct (firsts_one HF eq_refl) as [Hne Hf]. cbn [first] in Hf. apply ends_rec. cbn [body]. unfold primaryLoop_body. g1. rewrite (tok_of_app _ Hne). destruct (tok_of ts2); try discriminate Hf; exact H.
Qed.
Lemma query_apart n ts2 q rest : firsts Query ts2 [q] -> (n < 1)%nat -> apart n (ts2 ++ rest) /\ tok_of (ts2 ++ rest) <> TPipe.
Proof.
  intros HF Hn. destruct (firsts_one HF eq_refl) as [Hne Hf]. cbn [first] in Hf. rewrite (tok_of_app _ Hne). destruct ts2 as [|k ts2]; [congruence|]. cbn [tok_of app apart] in *. unfold stops. destruct (k_tok k); try discriminate Hf; (split; [cbn; lia|discriminate]).
Qed.
Lemma chain_collect ns ts1 e ts2 q k1 ts3 ops k2 : firsts Query ts2 [q] -> sem Chain ns ts1 [e] -> sem Query ns ts2 [q] -> is TLc k1 -> sem (ListOf AttrOp) ns ts3 ops -> is TRc k2 ->
    sem Chain ns (ts1 ++ ts2 ++ k1 :: ts3 ++ [k2]) [ECollect z e q ops].
Proof.
  intros HF H1 H2 Hk1 H3 Hk2 e' E c0 ds c rest Q S [HA HP] HK. injection E as <-. unis. norm S.
  destruct (query_apart (k1 :: ts3 ++ k2 :: rest) HF (le_n 1)) as [HQ1 HQ2]. eapply H1; [reflexivity|exact S|split; [exact HQ1|intros X; destruct (HQ2 X)]|].
  clear S. intros e1 c1 S1 E1 A1. eapply query_loop; [exact HF|eauto|]. unfold collectExpression. g1. call1 H2; [exact Logic.I|]. g1. apply ends_bind. g1. apply ends_bind.
  eapply ends_imp; [eapply (H3 []); [eassumption|right; exact Hk2]|]. intros l c9 (S9 & l1 & -> & El). g. eapply HK; [sd|cbn [strip app]; congruence|exact Logic.I].
Qed.
Lemma sem_primary ns ts e : sem Chain ns ts [e] -> sem Primary ns ts [invoke e].
Proof.
  intros H. one. eapply H; [reflexivity|exact S| |].
  - split; [eapply apart_le; [exact HA|lia]|]. intros X. apply apart_tok in HA. rewrite X in HA. cbn in HA. lia.
  - intros e1 c1 S1 E1 A1. apply ends_rec. cbn [body]. unfold primaryLoop_body. g1. apply apart_tok in HA as HT.
    apply (@ends_same _ _ (fun _ : recT => ret (convert e1))). { intros r. destruct (tok_of rest); cbn [shown]; try (exfalso; cbn in HT; lia); try (destruct (embedded m)); destruct e1; try reflexivity; destruct k; reflexivity. }
    g. split; [rewrite defs_invoke; exact S1|]. split; [rewrite strip_invoke; congruence|]. destruct e1; try exact A1. destruct k; try exact A1.
Qed.
End Rules.
