(** * GrammarAtoms: the rules of the grammar, atoms and chains *)
From Verif Require Import Base Float Tokens Ast Ctx Locator Lexer Parser SpecLex ReaderProof Utf8Facts LexBase GapProof LocatorProof LexTokens LexCur Evals Ends SpecGrammar GrammarBase GrammarFirst GrammarTree GrammarSem.
From Coq Require Import Lia ZifyBool.

Section Rules.
Variables (o : opts) (m : mode).
Hypothesis Hfac : o_factory o = true.
Hypothesis Hm : lawful o m.
Notation st := (st o m).
Notation sem := (sem o m).
Notation sem1 := (sem1 o m).
Notation semL := (semL o m).
Notation semC := (semC o m).
Notation semO := (semO o m).
Lemma rel_done ns ts e : sem Rel ns ts [e] -> sem1 (apart 15) (fun r => r expr FRelationship) ns ts [e].
Proof.
  intros H e' E c0 ds c rest S HA. injection E as <-. eapply H; [reflexivity|exact S|eapply apart_le; [exact HA|lia]|].
  intros e1 c1 S1 E1 A1. apply ends_rec. cbn [body]. unfold relLoop_body. g. 
  dflt (fun _ : recT => ret e1) HA rest. g. fin. exact A1.
Qed.


Lemma sem_paren ns k1 ts k2 e : paren k1 -> sem Rel ns ts [e] -> is TRp k2 -> sem Atom ns (k1 :: ts ++ [k2]) [EUn z KParen e].
Proof.
  intros HP H H2. apply rel_done in H. one. apply ends_rec. cbn [body]. unfold atom_body. 
  destruct HP as [HP|HP]; g; (call1 H; [stop|]); g; fin.
Qed.
Lemma sem_list ns k1 ts k2 es l : is TLb k1 \/ is TListstart k1 -> sem (ListOf Arg) ns ts es -> grouped es l -> is TRb k2 -> sem Atom ns (k1 :: ts ++ [k2]) [EList z l].
Proof.
  intros HP H HG H2. one. apply ends_rec. cbn [body]. unfold atom_body. destruct HP as [HP|HP]; g; (callA H HG); g; fin.
Qed.
Lemma sem_hash ns k1 ts k2 es : is TLc k1 -> sem (ListOf Entry) ns ts es -> is TRc k2 -> sem Atom ns (k1 :: ts ++ [k2]) [EHash z es].
Proof. intros HP H H2. one. apply ends_rec. cbn [body]. unfold atom_body. g. callL H. g. fin. Qed.
(** leaves *)
Ltac leaf_tac := one; apply ends_rec; cbn [body]; unfold atom_body, leaf; g; repeat match goal with H : k_val _ = _ |- _ => rewrite H end; g; fin.
Lemma sem_bool ns k b : is TBoolean k -> k_val k = VBool b -> sem Atom ns [k] [EBool z b].
Proof. intros H1 H2. leaf_tac. Qed.
Lemma sem_int ns k v : is TInteger k -> k_val k = VInt v -> sem Atom ns [k] [EInt z (k_radix k) v].
Proof.
  intros H1 H2. one. apply ends_rec. cbn [body]. unfold atom_body, leaf. g. rewrite H2. g. apply (ends_radix S H1). g. fin.
Qed.
Lemma sem_float ns k f : is TFloat k -> k_val k = VFloat f -> sem Atom ns [k] [EFloat z f].
Proof. intros H1 H2. leaf_tac. Qed.
Lemma sem_string ns k s : is TString k -> k_val k = VStr s -> sem Atom ns [k] [EString z s].
Proof. intros H1 H2. leaf_tac. Qed.
Lemma sem_text ns k s : is TRenderString k -> k_val k = VStr s -> sem Atom ns [k] [ERenderString z s].
Proof. intros H1 H2. leaf_tac. Qed.
Lemma sem_concat ns k es : is TConcatenatedString k -> k_val k = VExpr (EConcat z es) -> flat_map defs es = [] -> sem Atom ns [k] [EConcat z es].
Proof.
  intros H1 H2 H3. one. destruct (st_tree S H2) as (e1 & Hv & He). apply ends_rec. cbn [body]. unfold atom_body, value_expr. g1. g1. g1. apply ends_bind. apply ends_ask. rewrite Hv. cbv beta iota. g.
  split; [cbn [defs]; rewrite H3; same_defs S0|]. split; [exact He|]. destruct e1; try discriminate He. exact Logic.I.
Qed.
Lemma sem_reserved ns k s : is TAttr k \/ is TPrivate k -> k_val k = VStr s -> sem Atom ns [k] [EReserved z s false].
Proof. intros [H1|H1] H2; leaf_tac. Qed.
Lemma sem_default ns k : is TDefault k -> sem Atom ns [k] [EDefault z].
Proof. intros H1. leaf_tac. Qed.
Lemma sem_regexp ns k s : is TRegexp k -> k_val k = VStr s -> sem Atom ns [k] [ERegexp z s].
Proof. intros H1 H2. leaf_tac. Qed.
Lemma sem_undef ns k : is TUndef k -> sem Atom ns [k] [EUndef z].
Proof. intros H1. leaf_tac. Qed.
Lemma sem_name ns k s : is TIdentifier k -> k_val k = VStr s -> sem Atom ns [k] [EQName z s].
Proof. intros H1 H2. leaf_tac. Qed.
Lemma sem_var ns k s : is TVariable k -> k_val k = VStr s -> sem Atom ns [k] [EUn z KVariable (EQName z s)].
Proof. intros H1 H2. leaf_tac. Qed.
Lemma sem_numvar ns k v : is TVariable k -> k_val k = VInt v -> sem Atom ns [k] [EUn z KVariable (EInt z 10 v)].
Proof. intros H1 H2. leaf_tac. Qed.
Lemma text_of_type c0 ds ns k rest c : st c0 ds ns (k :: rest) c -> k_tok k = TTypeName -> tok_of rest = TLb -> node_text (c_text c0) (mkpos (c_tsp c) (c_pos c - c_tsp c)) = inl (k_txt k).
Proof.
  intros ((p & H) & Ht & _) Hk HB. destruct H as (_ & _ & _ & _ & _ & _ & HS & pre & HT & HP & HR). destruct rest as [|k2 r]; [discriminate HB|]. cbn in HB.
  destruct HR as (_ & _ & sk & Hpos & _). specialize (HP Hk). apply stream_cons in HS. destruct HS as (_ & _ & HSit & _). rewrite HB in HSit. cbn in HSit. destruct HSit as [HSit _].
  assert (Hg : k_gap k2 = []) by (unfold glued in HSit; destruct (k_gap k2); [reflexivity|discriminate]). rewrite Hg in Hpos.
  assert (Hpos' : c_pos c = zlen pre + zlen (k_txt k)) by (destruct sk; [change (@zlen Z []) with 0 in Hpos|]; lia).
  unfold node_text. cbn [p_off p_len]. rewrite <- Ht, HT, HP, Hpos'. pose proof (zlen_nonneg pre). pose proof (zlen_nonneg (k_txt k)). pose proof (zlen_nonneg (render (k2 :: r))).
  rewrite !zlen_app. replace (_ && _) with true by lia. f_equal. replace (zlen pre + (zlen pre + zlen (k_txt k) - zlen pre)) with (zlen pre + zlen (k_txt k)) by lia. apply slice_app.
Qed.
Lemma sem_type ns k s : is TTypeName k -> k_val k = VStr s -> k_txt k = s -> sem Atom ns [k] [EQRef z s].
Proof.
  intros H1 H2 H3. one. pose proof (text_of_type S) as HX. rewrite H3 in HX. specialize (HX H1). apply ends_rec. cbn [body]. unfold atom_body, leaf. g.
  split; [same_defs S0|]. split; [reflexivity|]. exact HX.
Qed.
(** ** Conditionals *)
Lemma sem_if ns k ts e : is TIf k -> sem (If false) ns (k :: ts) [e] -> sem Atom ns (k :: ts) [e].
Proof.
  intros H1 H. assert (Hn : tok_of (k :: ts) <> TEnd) by (cbn; rewrite H1; discriminate). specialize (H Hn). one. apply ends_rec. cbn [body]. unfold atom_body. g. rewrite app_comm_cons in S. call1 H; [exact HA|auto].
Qed.
Lemma sem_unless ns k ts e : is TUnless k -> sem (If true) ns (k :: ts) [e] -> sem Atom ns (k :: ts) [e].
Proof.
  intros H1 H. assert (Hn : tok_of (k :: ts) <> TEnd) by (cbn; rewrite H1; discriminate). specialize (H Hn). one. apply ends_rec. cbn [body]. unfold atom_body. g. rewrite app_comm_cons in S. call1 H; [exact HA|auto].
Qed.
Lemma block_anchored text ks e1 out : strip e1 = EBlock z out -> anchored text ks e1.
Proof. destruct e1; intros E; try discriminate E. exact Logic.I. Qed.
Lemma sem_braces ns ts e : sem Block ns ts [e] -> sem1 anything (fun r => braces r) ns ts [e].
Proof.
  intros H. one. destruct (H e eq_refl) as ((out & ->) & k1 & ts1 & k2 & -> & H1 & H2 & HB). unis. norm S. unfold braces. g1.
  eapply (ends_nextp Hfac Hm S); [nend|]. intros c1 S1 P1. clear S. rewrite H1 in P1. apply ends_bind. eapply ends_imp; [exact (HB c0 ds c1 rest S1 P1)|]. intros e1 c2 (S2 & E2). g. split; [exact S|]. split; [exact E2|].
  eapply block_anchored; exact E2.
Qed.
End Rules.
