(** * GrammarExprs: the rules of the grammar, operators, statements and blocks *)
From Verif Require Import Base Float Tokens Ast Ctx Locator Lexer Parser SpecLex ReaderProof Utf8Facts LexBase GapProof LocatorProof LexTokens LexCur Evals Ends SpecGrammar GrammarBase GrammarFirst GrammarTree GrammarSem GrammarAtoms.
From Coq Require Import Lia ZifyBool.

Section Rules.
Variables (o : opts) (m : mode).
Hypothesis Hfac : o_factory o = true.
Hypothesis Hm : lawful o m.
Notation st := (st o m).
Notation sem := (sem o m).
Notation sem1 := (sem1 o m).
Notation semL := (semL o m).
Notation semC := (semC o m).
Notation semO := (semO o m).
Notation rel_done := (@rel_done o).
Notation sem_braces := (@sem_braces o m Hfac Hm).

(** ** Operators *)
Lemma level_stop j t : (j <= 8)%nat -> stops (S (S j)) t -> level_op (level_of j) t = None.
Proof. intros Hj H. do 9 (destruct j as [|j]; [destruct t; try reflexivity; cbn in H; lia|]). lia. Qed.
Lemma op_done j ns ts e : (j <= 8)%nat -> sem (Op (S j)) ns ts [e] -> sem1 (apart (S (S j))) (fun r => r expr (FLevel (level_of j))) ns ts [e].
Proof.
  intros Hj H. one. eapply H; [reflexivity|exact S|eapply apart_le; [exact HA|lia]|]. intros e1 c1 S1 E1 A1.
  apply ends_rec. cbn [body]. unfold levelLoop_body. g1. rewrite (level_stop Hj (apart_shown m HA)). g. fin. exact A1.
Qed.
Lemma operand n ns ts e : (n <= 8)%nat -> sem (Op n) ns ts [e] -> sem1 (apart (S n)) (fun r => level_operand r (level_of n)) ns ts [e].
Proof.
  intros Hn H. destruct n as [|j]; [exact H|]. apply op_done in H; [|lia].
  assert (X : (fun r : recT => level_operand r (level_of (S j))) = (fun r : recT => r expr (FLevel (level_of j)))) by (do 8 (destruct j as [|j]; [reflexivity|]); lia).
  rewrite X. exact H.
Qed.
Lemma sem_up n ns ts e : (n < 9)%nat -> sem (Op n) ns ts [e] -> sem (Op (S n)) ns ts [e].
Proof.
  intros Hn H e' E c0 ds c rest Q S HA HK. injection E as <-. apply operand in H; [|lia]. apply ends_rec. cbn [body]. unfold level_body. call1 H; [exact HA|]. eauto.
Qed.
Lemma op_facts n t kind text : In (S n, t, kind, text) operators -> (n <= 8)%nat /\ level_op (level_of n) t = Some kind /\ (text <> ""%string -> tokenMap t = lit text)
  /\ (match kind with KOr | KAnd | KIn => text = ""%string | _ => text <> ""%string end) /\ t <> TEnd /\ continues t = Some (S (S n)).
Proof.
  unfold operators. cbn [In]. intros H.
  repeat (destruct H as [H|H]; [injection H as <- <- <- <-; repeat split; try lia; try reflexivity; try discriminate; try congruence|]). destruct H.
Qed.
Lemma sem_bin n ns k kind text ts1 a ts2 b : In (S n, k_tok k, kind, text) operators -> sem (Op (S n)) ns ts1 [a] -> sem (Op n) ns ts2 [b] -> (text <> ""%string -> k_val k = VNil) ->
  sem (Op (S n)) ns (ts1 ++ k :: ts2) [EBin z kind (lit text) a b].
Proof.
  intros HI H1 H2 HV e' E c0 ds c rest Q S HA HK. injection E as <-. norm S. destruct (op_facts HI) as (Hn & HL & HT & Hk & HE & HC). apply operand in H2; [|lia].
  eapply H1; [reflexivity|exact S|cbn [apart]; unfold stops; rewrite HC; lia|]. intros a1 c1 S1 Ea A1. apply ends_rec. cbn [body]. unfold levelLoop_body. g1. rewrite HL. clear S.
  assert (HO : forall Q', ends (fun r => x <- r unit FNextToken ;; r0 <- level_operand r (level_of n) ;; p <- span (byteOffset a1) ;; r expr (FLevelLoop (level_of n) (EBin p kind (lit text) a1 r0))) c1 Q' ->
     ends (fun r => op <- level_op_text kind ;; r unit FNextToken ;; r0 <- level_operand r (level_of n) ;; p <- span (byteOffset a1) ;; r expr (FLevelLoop (level_of n) (EBin p kind op a1 r0))) c1 Q').
  { intros Q' HQ. assert (HH : text = ""%string \/ text <> ""%string) by (destruct text; [auto|right; discriminate]). destruct HH as [Ht|Ht].
    - destruct kind; try congruence; eapply ends_step; try reflexivity; subst text; exact HQ.
    - specialize (HV Ht). specialize (HT Ht). destruct kind; try congruence; (eapply (ends_string S1); [right; split; [exact HV|rewrite (shown_not m HE), HT; reflexivity]|exact HQ]). }
  apply HO. g1. call1 H2; [exact HA|]. g. eapply HK; [sd| |exact Logic.I]. cbn [strip]. congruence.
Qed.
Lemma sem_unary ns ts e : firsts Primary ts [e] -> sem Primary ns ts [e] -> sem Unary ns ts [e].
Proof.
  intros HF H. one. apply ends_rec. cbn [body]. unfold unary_body. g1. g1. destruct (firsts_one HF eq_refl) as [Hne Hf]. rewrite (tok_of_app _ Hne). cbn [first] in Hf.
  apply (@ends_same _ _ (fun r => r expr FPrimary)); [intros r; destruct (tok_of ts); try discriminate Hf; reflexivity|]. call1 H; [exact HA|auto].
Qed.

Lemma atom_not_end t : atom_start t = true -> t <> TEnd.
Proof. intros H ->. discriminate H. Qed.
Lemma sem_minus ns k k2 ts e : is TSubtract k -> firsts Primary (k2 :: ts) [e] -> sem Primary ns (k2 :: ts) [e] -> ~ digit (first_byte (k_txt k2)) ->
  sem Unary ns (k :: k2 :: ts) [EUn z KUnaryMinus e].
Proof.
  intros H1 HF H HD. one. apply ends_rec. cbn [body]. unfold unary_body. g. destruct (firsts_one HF eq_refl) as [_ Hf]. apply atom_not_end in Hf. cbn [tok_of] in Hf.
  pose proof S as ((p & HP) & _). destruct (peek_other Hfac Hm HP HD Hf) as (r & n & Hpk & Hdig). eapply ends_step; [exact Hpk|]. cbv beta iota. rewrite Hdig. unfold unary_node. g.
  rewrite app_comm_cons in S0. call1 H; [exact HA|]. g. fin.
Qed.
Lemma digit_b c : digit c -> isDecimalDigit c = true.
Proof. unfold digit, isDecimalDigit, in_range. lia. Qed.
Lemma curp_negate p ns k rest c v : k_tok k <> TEnd -> flat v -> curp o m p ns (k :: rest) c -> curp o m p ns (negate k v :: rest) (with_tok (k_tok k) v c).
Proof.
  intros Hk Hf (H1 & H2 & H3 & H4 & H5 & H6 & H7 & pre & H8). split; [exact H1|]. split; [exact H2|]. split; [symmetry; exact (shown_not m Hk)|]. split; [destruct v; try reflexivity; destruct Hf|]. split; [exact H5|]. split; [exact H6|].
  split; [exact H7|]. exists pre. destruct rest; exact H8.
Qed.
Lemma anchored_set_pos text ks p e : (tok_of ks <> TLb) -> anchored text ks e -> anchored text ks (set_pos p e).
Proof. destruct e; cbn; intros; auto. congruence. Qed.
Lemma apart_lb ks n : apart (S n) ks -> tok_of ks <> TLb.
Proof. intros H E. apply apart_tok in H. rewrite E in H. cbn in H. lia. Qed.
Lemma negative (v : tval) (w : tval) k k2 ts e ns : is TSubtract k -> k_gap k2 = [] -> digit (first_byte (k_txt k2)) ->
  (is TInteger k2 /\ (exists i, v = VInt i /\ w = VInt (- i)) \/ is TFloat k2 /\ exists f, v = VFloat f /\ w = VFloat (f64_neg f)) -> k_val k2 = v ->
  sem Primary ns (negate k2 w :: ts) [e] -> sem Unary ns (k :: k2 :: ts) [e].
Proof.
  intros H1 HG HD HK HV H. one. apply ends_rec. cbn [body]. unfold unary_body. g.
  assert (Hn : k_tok k2 <> TEnd) by (destruct HK as [[-> _]|[-> _]]; discriminate).
  pose proof S as ((p & HP) & _). destruct (peek_glued Hfac Hm HP HG Hn) as (n & Hpk). eapply ends_step; [exact Hpk|]. cbv beta iota. rewrite (digit_b HD). g1.
  apply (@ends_same _ _ (fun r => settokenValue (k_tok k2) w ;; signed_number r (c_tsp c))).
  { intros r. unfold bind at 1, curTok, ask. unfold bind at 1, ask. rewrite (st_val S0), HV by (rewrite HV; destruct HK as [[_ (i & -> & _)]|[_ (f & -> & _)]]; exact Logic.I). pose proof (st_tok S0) as Ht. cbn [tok_of] in Ht. rewrite (shown_not m Hn) in Ht. rewrite Ht.
    destruct HK as [[-> (i & -> & ->)]|[-> (f & -> & ->)]]; reflexivity. }
  unfold settokenValue. apply ends_modify. destruct S0 as ((p0 & HP0) & Htx & Hdf). apply (@curp_negate _ _ _ _ _ w Hn) in HP0; [|destruct HK as [[_ (i & _ & ->)]|[_ (f & _ & ->)]]; exact Logic.I].
  assert (S1 : st c0 ds ns ((negate k2 w :: ts) ++ rest) (with_tok (k_tok k2) w c1)) by (split; [eexists; exact HP0|split; [exact Htx|exact Hdf]]).
  unfold signed_number. call1 H; [exact HA|]. g. split; [sd|]. split; [rewrite strip_set_pos; exact E|]. apply anchored_set_pos; [eapply apart_lb; exact HA|exact A].
Qed.
Lemma sem_negative_int ns k k2 ts v e : is TSubtract k -> k_gap k2 = [] -> digit (first_byte (k_txt k2)) -> is TInteger k2 -> k_val k2 = VInt v ->
    sem Primary ns (negate k2 (VInt (- v)) :: ts) [e] -> sem Unary ns (k :: k2 :: ts) [e].
Proof. intros H1 H2 H3 H4 H5. eapply negative; eauto. Qed.
Lemma sem_negative_float ns k k2 ts f e : is TSubtract k -> k_gap k2 = [] -> digit (first_byte (k_txt k2)) -> is TFloat k2 -> k_val k2 = VFloat f ->
    sem Primary ns (negate k2 (VFloat (f64_neg f)) :: ts) [e] -> sem Unary ns (k :: k2 :: ts) [e].
Proof. intros H1 H2 H3 H4 H5. eapply negative; eauto. Qed.
Lemma sem_plus ns k k2 ts e : is TAdd k -> k_gap k2 = [] -> digit (first_byte (k_txt k2)) -> is TInteger k2 \/ is TFloat k2 -> sem Primary ns (k2 :: ts) [e] -> sem Unary ns (k :: k2 :: ts) [e].
Proof.
  intros H1 HG HD HK H. one. apply ends_rec. cbn [body]. unfold unary_body. g.
  assert (Hn : k_tok k2 <> TEnd) by (destruct HK as [-> | ->]; discriminate).
  pose proof S as ((p & HP) & _). destruct (peek_glued Hfac Hm HP HG Hn) as (n & Hpk). eapply ends_step; [exact Hpk|]. cbv beta iota. rewrite (digit_b HD). g1.
  unfold signed_number. rewrite app_comm_cons in S0. call1 H; [exact HA|]. g. split; [sd|]. split; [rewrite strip_set_pos; exact E|]. apply anchored_set_pos; [eapply apart_lb; exact HA|exact A].
Qed.
Lemma sem_not ns k ts e : is TNot k -> sem Unary ns ts [e] -> sem Unary ns (k :: ts) [EUn z KNot e].
Proof. intros H1 H. one. apply ends_rec. cbn [body]. unfold unary_body, unary_node. g. call1 H; [exact HA|]. g. fin. Qed.
Lemma sem_splat ns k ts e : is TMultiply k -> sem Unary ns ts [e] -> sem Unary ns (k :: ts) [EUn z KUnfold e].
Proof. intros H1 H. one. apply ends_rec. cbn [body]. unfold unary_body, unary_node. g. call1 H; [exact HA|]. g. fin. Qed.
(** ** Selectors and expressions *)
Lemma sem_select ns ts e : sem (Op 9) ns ts [e] -> sem Select ns ts [e].
Proof.
  intros H e' E c0 ds c rest Q S HA HK. injection E as <-. apply op_done in H; [|lia]. unfold select_part. call1 H; [exact HA|]. eauto.
Qed.
Lemma sem_sel_many ns ts1 e k1 k2 ts2 es k3 : sem Select ns ts1 [e] -> is TQmark k1 -> is TSelc k2 -> sem (ListOf SelEntry) ns ts2 es -> is TRc k3 ->
    sem Select ns (ts1 ++ k1 :: k2 :: ts2 ++ [k3]) [ESelector z e es].
Proof.
  intros H1 Hk1 Hk2 H2 Hk3 e' E c0 ds c rest Q S HA HK. injection E as <-. unis. norm S. eapply H1; [reflexivity|exact S|stop|]. clear S. intros e1 c1 S1 E1 A1.
  apply ends_rec. cbn [body]. unfold selectLoop_body, selectorsExpression. g. callL H2. g. eapply HK; [sd| |exact Logic.I]. cbn [strip]. congruence.
Qed.
(** after the selectors *)
Lemma finish_expression (e : expr) rest c0 ds ns c (Q : expr -> ctx -> Prop) : st c0 ds ns rest c -> apart 12 rest -> Q e c ->
  ends (fun r => cur <- curTok ;;
  match cur with
  | TProduces | TConsumes =>
    capToken <- tokenString ;;
    match e with
    | EQName _ _ | EQRef _ _ | EReserved _ _ _ | EAccess _ _ _ => capabilityMapping r e capToken
    | _ => ret e
    end
  | _ => ret e
  end) c Q.
Proof. intros S HA HQ. g1. dflt (fun _ : recT => ret e) HA rest. g. exact HQ. Qed.
Lemma ends_select c Q : ends select_part c (fun e c1 => ends (fun r => cur <- curTok ;;
  match cur with
  | TProduces | TConsumes =>
    capToken <- tokenString ;;
    match e with
    | EQName _ _ | EQRef _ _ | EReserved _ _ _ | EAccess _ _ _ => capabilityMapping r e capToken
    | _ => ret e
    end
  | _ => ret e
  end) c1 Q) -> ends (fun r => r expr FExpression) c Q.
Proof.
  intros H. apply ends_rec. cbn [body]. unfold expression_body. apply ends_bind in H. eapply ends_same; [|exact H]. intros r. unfold select_part, bind. destruct (r expr (FLevel LOr) c); reflexivity.
Qed.
Lemma sem_expression ns ts e : sem Select ns ts [e] -> sem Expression ns ts [e].
Proof.
  intros H. one. apply ends_select. eapply H; [reflexivity|exact S|eapply apart_le; [exact HA|lia]|]. intros e1 c1 S1 E1 A1. apply ends_rec. cbn [body]. unfold selectLoop_body. g1.
  pose proof (apart_tok HA) as HT. destruct (tok_eqb_spec (tok_of rest) TQmark) as [X|_]; [rewrite X in HT; cbn in HT; lia|]. g1. eapply finish_expression; [exact S1|exact HA|]. fin. exact A1.
Qed.
Lemma sem_one ns ts1 e k1 ts2 s : sem Select ns ts1 [e] -> is TQmark k1 -> firsts SelEntry ts2 [s] -> sem SelEntry ns ts2 [s] -> sem Expression ns (ts1 ++ k1 :: ts2) [ESelector z e [s]].
Proof.
  intros H1 Hk1 HF H2. one. apply ends_select. eapply H1; [reflexivity|exact S|stop|]. clear S. intros e1 c1 S1 E1 A1. apply ends_rec. cbn [body]. unfold selectLoop_body, selectorsExpression. g1. g1. g1.
  destruct (firsts_one HF eq_refl) as [Hne Hf]. g1. rewrite (tok_of_app _ Hne). cbn [first] in Hf.
  destruct (tok_eqb_spec (tok_of ts2) TSelc) as [X|_]; [rewrite X in Hf; discriminate Hf|]. call1 H2; [exact HA|]. g.
  apply ends_rec. cbn [body]. unfold selectLoop_body. g1.
  pose proof (apart_tok HA) as HT. destruct (tok_eqb_spec (tok_of rest) TQmark) as [X|_]; [rewrite X in HT; cbn in HT; lia|]. g1. eapply finish_expression; [exact S0|exact HA|]. fin.
Qed.
Lemma sem_selector_entry ns ts1 a k ts2 b : sem Expression ns ts1 [a] -> is TFarrow k -> sem Expression ns ts2 [b] -> sem SelEntry ns (ts1 ++ k :: ts2) [ESelEntry z a b].
Proof. intros H1 Hk H2. one. unfold selectorEntry. g. call1 H1; [stop|]. g. call1 H2; [exact HA|]. g. fin. Qed.
End Rules.
