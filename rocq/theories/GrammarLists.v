(** * GrammarLists: the rules of the grammar, lists, arguments, parameters and lambdas *)
From Verif Require Import Base Float Tokens Ast Ctx Locator Lexer Parser SpecLex ReaderProof Utf8Facts LexBase GapProof LocatorProof LexTokens LexCur Evals Ends SpecGrammar GrammarBase GrammarFirst GrammarTree GrammarSem GrammarAtoms GrammarExprs GrammarStmts.
From Coq Require Import Lia ZifyBool.

Lemma closed_apart n rest : closed rest -> (n < 16)%nat -> apart n rest.
Proof.
  intros H Hn. destruct rest as [|k r]; [exact Logic.I|]. unfold closed, closing in H. cbn [tok_of In apart] in *. unfold stops.
  destruct H as [->|[H| ->]]; cbn; try lia; auto. repeat (destruct H as [<-|H]; [exact Logic.I|]). destruct H.
Qed.
Lemma closed_term t rest : closing t -> tok_of rest = t -> closed rest.
Proof. intros H <-. unfold closed. auto. Qed.
Section Rules.
Variables (o : opts) (m : mode).
Hypothesis Hfac : o_factory o = true.
Hypothesis Hm : lawful o m.
Notation st := (st o m).
Notation sem := (sem o m).
Notation sem1 := (sem1 o m).
Notation semL := (semL o m).
Notation semC := (semC o m).
Notation semO := (semO o m).
Notation listed := (listed o m).
Notation rel_done := (@rel_done o m Hfac).
Notation sem_braces := (@sem_braces o m Hfac Hm).

Lemma sem1_weak (P P' : list tk -> Prop) F ns ts es : (forall r, P' r -> P r) -> sem1 P F ns ts es -> sem1 P' F ns ts es.
Proof. intros HP H e E c0 ds c rest S HA. eapply H; eauto. Qed.
(** ** Lists *)
Lemma closing_shown t : closing t -> shown m t = t.
Proof. intros H. apply shown_not. intros ->. unfold closing in H. cbn [In] in H. intuition discriminate. Qed.
Lemma list_nil p ns : listed p ns [] [].
Proof.
  intros term HC acc c0 ds c rest S HR. norm S. apply ends_rec. cbn [body]. unfold expressions_body. g1. rewrite HR, (closing_shown HC), tok_eqb_refl. g. split; [sd|]. exists []. rewrite app_nil_r. auto.
Qed.
Definition starting (ts : list tk) : Prop := ts <> [] /\ tok_of ts <> TEnd /\ ~ closing (tok_of ts).
Lemma list_one p ns ts e : starting ts -> sem1 closed (fun r => produce r p) ns ts [e] -> listed p ns ts [e].
Proof.
  intros (Hne & Hen & Hns) H term HC acc c0 ds c rest S HR. apply ends_rec. cbn [body]. unfold expressions_body. g1. rewrite (tok_of_app _ Hne), (shown_not m Hen).
  destruct (tok_eqb_spec (tok_of ts) term) as [X|_]; [congruence|]. call1 H; [eapply closed_term; eassumption|]. g1. rewrite HR, ?(closing_shown HC).
  destruct (tok_eqb_spec term TComma) as [X|_]; [subst term; rewrite X in HC; unfold closing in HC; cbn [In] in HC; intuition discriminate|]. cbn [negb]. rewrite tok_eqb_refl. cbn [negb]. g.
  split; [sd|]. exists [e0]. split; [reflexivity|]. cbn [map]. congruence.
Qed.
Lemma list_more p ns ts e k ts2 es : starting ts -> sem1 closed (fun r => produce r p) ns ts [e] -> is TComma k -> listed p ns ts2 es -> listed p ns (ts ++ k :: ts2) (e :: es).
Proof.
  intros (Hne & Hen & Hns) H Hk H2 term HC acc c0 ds c rest S HR. unis. norm S. apply ends_rec. cbn [body]. unfold expressions_body. g1. rewrite (tok_of_app _ Hne), (shown_not m Hen).
  destruct (tok_eqb_spec (tok_of ts) term) as [X|_]; [congruence|]. call1 H; [left; exact Hk|]. g.
  eapply ends_imp; [eapply (H2 term HC (acc ++ [e0])); [eassumption|exact HR]|]. intros l c9 (S9 & l1 & -> & El). split; [sd|]. exists (e0 :: l1). rewrite <- app_assoc. split; [reflexivity|]. cbn. congruence.
Qed.
Definition ops_end (rest : list tk) : Prop := tok_of rest = TSemicolon \/ tok_of rest = TRc.
Lemma attrs_nil ns : sem (ListOf AttrOp) ns [] [].
Proof.
  intros acc c0 ds c rest S HR. norm S. apply ends_rec. cbn [body]. unfold attrOps_body. g1. destruct HR as [HR|HR]; rewrite HR; cbn [shown]; g; (split; [sd|]; exists []; rewrite app_nil_r; auto).
Qed.
Lemma attr_first ts es : firsts AttrOp ts es -> ts <> [] /\ tok_of ts <> TSemicolon /\ tok_of ts <> TRc /\ tok_of ts <> TEnd.
Proof. intros HF. destruct (firsts_one HF eq_refl) as [Hne Hf]. cbn [first] in Hf. repeat split; [exact Hne| | |]; intros X; rewrite X in Hf; discriminate Hf. Qed.
Lemma attrs_one ns ts e : firsts AttrOp ts [e] -> sem AttrOp ns ts [e] -> sem (ListOf AttrOp) ns ts [e].
Proof.
  intros HF H acc c0 ds c rest S HR. destruct (attr_first HF) as (Hne & F1 & F2 & F3). apply ends_rec. cbn [body]. unfold attrOps_body. g1. rewrite (tok_of_app _ Hne), (shown_not m F3).
  eapply (@ends_same _ _ (fun r => op <- attributeOperation r ;; cur <- curTok ;; if negb (tok_eqb cur TComma) then ret (acc ++ [op]) else r unit FNextToken ;; r _ (FAttrOps (acc ++ [op])))); [intros r; destruct (tok_of ts); try reflexivity; congruence|].
  call1 H; [destruct rest as [|k r]; [exact Logic.I|]; cbn [tok_of] in HR; cbn [apart]; destruct HR as [-> | ->]; exact Logic.I|]. g1.
  destruct (tok_eqb_spec (tok_of rest) TComma) as [X|_]; [destruct HR; congruence|]. cbn [negb]. g. split; [sd|]. exists [e0]. split; [reflexivity|]. cbn. congruence.
Qed.
Lemma attrs_more ns ts e k ts2 es : firsts AttrOp ts [e] -> sem AttrOp ns ts [e] -> is TComma k -> sem (ListOf AttrOp) ns ts2 es -> sem (ListOf AttrOp) ns (ts ++ k :: ts2) (e :: es).
Proof.
  intros HF H Hk H2 acc c0 ds c rest S HR. unis. norm S. destruct (attr_first HF) as (Hne & F1 & F2 & F3). apply ends_rec. cbn [body]. unfold attrOps_body. g1. rewrite (tok_of_app _ Hne), (shown_not m F3).
  eapply (@ends_same _ _ (fun r => op <- attributeOperation r ;; cur <- curTok ;; if negb (tok_eqb cur TComma) then ret (acc ++ [op]) else r unit FNextToken ;; r _ (FAttrOps (acc ++ [op])))); [intros r; destruct (tok_of ts); try reflexivity; congruence|].
  call1 H; [stop|]. g. eapply ends_imp; [eapply (H2 (acc ++ [e0])); [eassumption|exact HR]|]. intros l c9 (S9 & l1 & -> & El). split; [sd|]. exists (e0 :: l1). rewrite <- app_assoc. split; [reflexivity|]. cbn. congruence.
Qed.
(** ** Blocks inside other phrases *)
Lemma block_first ns ts e : sem Block ns ts [e] -> exists k ts', ts = k :: ts' /\ is TLc k.
Proof. intros H. destruct (H e eq_refl) as (_ & k1 & ts1 & k2 & -> & H1 & _). eauto. Qed.
(** ** Types *)
Lemma sem_type_name ns k n : is TTypeName k -> k_val k = VStr n -> sem TypeRef ns [k] [EQRef z n].
Proof.
  intros H1 H2 e E c0 ds c rest S HA. injection E as <-. unis. norm S. apply ends_rec. cbn [body]. unfold parameterType_body, typeName. g.
  pose proof (apart_tok HA) as HT. destruct (tok_eqb_spec (tok_of rest) TLb) as [X|_]; [rewrite X in HT; cbn in HT; lia|]. g. split; [sd|reflexivity].
Qed.
Lemma sem_type_args ns k n k1 ts es l k2 : is TTypeName k -> k_val k = VStr n -> is TLb k1 -> sem (ListOf Arg) ns ts es -> grouped es l -> is TRb k2 ->
    sem TypeRef ns (k :: k1 :: ts ++ [k2]) [EAccess z (EQRef z n) l].
Proof.
  intros H1 H2 H3 H HG H4 e E c0 ds c rest S HA. injection E as <-. unis. norm S. apply ends_rec. cbn [body]. unfold parameterType_body, typeName. g.
  callA H HG. g. split; [sd|]. cbn [strip]. congruence.
Qed.
Lemma sem_opt_type_none ns : sem OptType ns [] [].
Proof.
  intros c0 ds c rest S HA. norm S. unfold optParameterType. g1. destruct HA as [X|X]; rewrite X; red_tok; g; (split; [sd|reflexivity]).
Qed.
Lemma type_first ts es : firsts TypeRef ts es -> ts <> [] /\ tok_of ts = TTypeName.
Proof. intros HF. destruct (firsts_one HF eq_refl) as [Hne Hf]. split; [exact Hne|]. cbn [first] in Hf. now apply tok_eqb_eq. Qed.
Lemma sem_opt_type ns ts t : firsts TypeRef ts [t] -> sem TypeRef ns ts [t] -> sem OptType ns ts [t].
Proof.
  intros HF H c0 ds c rest S HA. destruct (type_first HF) as [Hne Hf]. unfold optParameterType. g1. rewrite (tok_of_app _ Hne), Hf. red_tok. apply ends_bind.
  eapply ends_imp; [eapply H; [reflexivity|exact S|]|]. { destruct rest as [|k r]; [exact Logic.I|]. cbn [apart tok_of] in *. unfold stops. destruct HA as [-> | ->]; cbn; auto. }
  intros e1 c1 (S1 & E1). g. split; [sd|]. cbn. congruence.
Qed.
Lemma sem_no_return ns : sem OptReturn ns [] [].
Proof. intros c0 ds c rest S HA. norm S. unfold optReturnType. g1. rewrite HA. red_tok. g. split; [sd|reflexivity]. Qed.
Lemma sem_return ns k ts t : is TRshift k -> sem TypeRef ns ts [t] -> sem OptReturn ns (k :: ts) [t].
Proof.
  intros Hk H c0 ds c rest S HA. unis. norm S. unfold optReturnType. g. apply ends_bind.
  eapply ends_imp; [eapply H; [reflexivity|eassumption|]|]. { destruct rest as [|k' r]; [exact Logic.I|]. cbn [apart tok_of] in *. unfold stops. rewrite HA. cbn. lia. }
  intros e1 c9 (S1 & E1). g. split; [sd|]. cbn. congruence.
Qed.
(** ** Parameters *)
Lemma sem_no_default ns : sem OptDefault ns [] [].
Proof.
  intros c0 ds c rest S HA. norm S. unfold default_part. g1. destruct (tok_eqb_spec (tok_of rest) TAssign) as [X|_].
  { unfold closed, closing in HA. rewrite X in HA. cbn [In] in HA. intuition discriminate. } g. split; [sd|reflexivity].
Qed.
Lemma sem_default_value ns k ts e : is TAssign k -> sem Expression ns ts [e] -> sem OptDefault ns (k :: ts) [e].
Proof.
  intros Hk H c0 ds c rest S HA. unis. norm S. unfold default_part. g. call1 H; [apply closed_apart; [exact HA|lia]|]. g. split; [sd|]. cbn. congruence.
Qed.
Definition few (es : list expr) : Prop := es = [] \/ exists e, es = [e].
Lemma few_defs es : few es -> flat_map defs es = opt_flat defs (hd_error es).
Proof. intros [-> |(e & ->)]; cbn; rewrite ?app_nil_r; reflexivity. Qed.
Lemma sem_param ns ts1 t rs k n ts2 v : few t -> few v -> sem OptType ns ts1 t -> (rs = [] \/ exists s, rs = [s] /\ is TMultiply s) ->
    is TVariable k -> k_val k = VStr n -> sem OptDefault ns ts2 v ->
    sem Param ns (ts1 ++ rs ++ k :: ts2) [EParam z n (hd_error v) (hd_error t) (match rs with [] => false | _ => true end)].
Proof.
  intros Ft Fv H1 HR Hk Hv H2. one. unfold parameter. g1. apply ends_bind.
  eapply ends_imp; [eapply H1; [exact S|]|]. { destruct HR as [-> |(s & -> & Hs)]; cbn; auto. }
  intros t1 c1 (S1 & Et). clear S. rewrite (few_defs Ft) in S1. cbv beta zeta.
  assert (K : forall c2 start b, st c0 (ds ++ opt_flat defs (hd_error t)) ns (k :: ts2 ++ rest) c2 -> ends (fun r => name <- parameterName r ;; cur <- curTok ;;
     value <- (if tok_eqb cur TAssign then r unit FNextToken ;; e <- r expr FExpression ;; ret (Some e) else ret None) ;;
     p <- span start ;; ret (EParam p name value t1 b)) c2 (fun e1 c2 => st c0 (ds ++ defs (EParam z n (hd_error v) (hd_error t) b)) ns rest c2 /\ strip e1 = EParam z n (hd_error v) (hd_error t) b /\ anchored (c_text c0) rest e1)).
  { intros c2 start b S. unfold parameterName. g1. g1. g1. rewrite Hv. cbv iota. g1. g1.
    apply (@ends_same _ _ (fun r => bind (default_part r) (fun value => p <- span start ;; ret (EParam p n value t1 b)))); [reflexivity|]. apply ends_bind.
    eapply ends_imp; [eapply H2; [eassumption|exact HA]|]. intros v1 c4 (S4 & Ev). rewrite (few_defs Fv) in S4. g. fin. }
  destruct HR as [-> |(s & -> & Hs)]; cbn [app] in S1; unis.
  - g1. g1. apply K. exact S1.
  - g1. g1. apply K. exact S.
Qed.
Lemma sem_no_params ns : sem OptParams ns [] [].
Proof.
  intros c0 ds c rest S HA HW. norm S. unfold optParameterList. g1. apply apart_tok in HA.
  apply (@ends_same _ _ (fun _ : recT => ret [])); [intros r; destruct (tok_of rest); cbn [shown]; try reflexivity; first [destruct (embedded m); reflexivity|exfalso; cbn in HA; first [lia|congruence]]|]. g. split; [sd|reflexivity].
Qed.
Lemma sem_params ns k1 ts k2 ps : paren k1 -> sem (ListOf Param) ns ts ps -> is TRp k2 -> sem OptParams ns (k1 :: ts ++ [k2]) ps.
Proof.
  intros Hk H H2 c0 ds c rest S HA HW. unis. norm S. unfold optParameterList, parameterList, parameterListOf. destruct Hk as [Hk|Hk]; g; callL H; g; (split; [sd|congruence]).
Qed.
Lemma sem_lambda ns k1 ts1 ps k2 ts2 r ts3 b : few r -> is TPipe k1 -> sem (ListOf Param) ns ts1 ps -> is TPipeEnd k2 -> sem OptReturn ns ts2 r -> sem Block ns ts3 [b] ->
    sem Lambda ns (k1 :: ts1 ++ k2 :: ts2 ++ ts3) [ELambda z ps b (hd_error r)].
Proof.
  intros Fr H1 H Hk2 H2 H3. one. destruct (H3 b eq_refl) as ((out & ->) & k3 & ts4 & k4 & -> & Hk3 & Hk4 & HB). unis. norm S.
  unfold lambda, lambdaParameterList. g. callL H. g. apply ends_bind. eapply ends_imp; [eapply H2; [eassumption|exact Hk3]|]. intros r1 c8 (S8 & Er). rewrite (few_defs Fr) in S8. g1.
  eapply (ends_nextp Hfac Hm S8); [nend|]. intros c9 S9 P9. rewrite Hk3 in P9. apply ends_bind. eapply ends_imp; [exact (HB _ _ _ rest S9 P9)|]. intros e1 c10 (S10 & E10). g. fin.
Qed.
Lemma sem_no_lambda ns : sem OptLambda ns [] [].
Proof. left. auto. Qed.
Lemma sem_opt_lambda ns ts l : firsts Lambda ts [l] -> sem Lambda ns ts [l] -> sem OptLambda ns ts [l].
Proof. intros HF H. destruct (firsts_one HF eq_refl) as [Hne Hf]. cbn [first] in Hf. apply tok_eqb_eq in Hf. right. exists l. auto. Qed.
(** ** Arguments *)
Lemma sem_arguments ns k1 ts k2 es l : is TLp k1 -> sem (ListOf Arg) ns ts es -> grouped es l -> is TRp k2 -> sem Args ns (k1 :: ts ++ [k2]) l.
Proof.
  intros H1 H HG H2 c0 ds c rest S. unis. norm S. unfold args_part. g. callL H. g. cbn [fst]. rewrite (defs_grouped HG). split; [sd|]. apply join_grouped. congruence.
Qed.
(** a call, from its arguments on *)
Lemma call_ok (f : expr) ns ts2 args ts3 l : firsts Args ts2 args -> few l -> sem Args ns ts2 args -> sem OptLambda ns ts3 l ->
  forall c0 ds c rest, st c0 ds ns (ts2 ++ ts3 ++ rest) c -> (ts3 = [] -> tok_of rest <> TPipe) ->
  ends (fun r => r expr (FCall f)) c (fun e1 c1 => st c0 (ds ++ flat_map defs args ++ opt_flat defs (hd_error l)) ns rest c1 /\ strip e1 = call (strip f) args (hd_error l) /\ anchored (c_text c0) rest e1).
Proof.
  intros HF Fl H2 H3 c0 ds c rest S HR. destruct (firsts_one HF eq_refl) as [Hne Hf]. cbn [first] in Hf. apply tok_eqb_eq in Hf.
  apply ends_rec. cbn [body]. unfold call_body. cbv zeta. g1. rewrite (tok_of_app _ Hne), Hf. red_tok. apply ends_bind.
  eapply ends_imp; [exact (H2 _ _ _ _ S)|]. intros (a1 & end1) c1 (S1 & Ea). cbn [fst] in Ea. clear S. cbv beta iota. g1.
  assert (K : forall c2 bl end2, st c0 (ds ++ flat_map defs args ++ opt_flat defs (hd_error l)) ns rest c2 -> option_map strip bl = hd_error l ->
     ends (fun r : recT => match f with EBin _ KNamedAccess _ _ _ => ret (convertLhsToCall f a1 bl (mkpos (byteOffset f) (end2 - byteOffset f))) | _ => ret (ECallNamed (mkpos (byteOffset f) (end2 - byteOffset f)) true f a1 bl) end) c2
       (fun e1 c1 => st c0 (ds ++ flat_map defs args ++ opt_flat defs (hd_error l)) ns rest c1 /\ strip e1 = call (strip f) args (hd_error l) /\ anchored (c_text c0) rest e1)).
  { intros c2 bl end2 S2 Eb. apply (@ends_same _ _ (fun _ : recT => ret (make_call f a1 bl (mkpos (byteOffset f) (end2 - byteOffset f))))).
    { intros r. destruct f; try reflexivity. destruct k; reflexivity. }
    g. split; [exact S2|]. rewrite strip_call. split; [congruence|]. destruct f; try exact Logic.I. destruct k; exact Logic.I. }
  destruct H3 as [[-> ->]|(l0 & -> & Hl & Hln & H3)].
  - cbn [app]. destruct (tok_eqb_spec (tok_of rest) TPipe) as [X|_]; [exfalso; exact (HR eq_refl X)|]. g1. cbv beta iota. apply K; [|reflexivity]. cbn [app] in S1. cbn [hd_error opt_flat]. rewrite app_nil_r. exact S1.
  - rewrite (tok_of_app _ Hln), Hl. red_tok. g1. call1 H3; [exact Logic.I|]. g1. cbv beta iota. apply K; [|cbn; congruence]. cbn [hd_error opt_flat]. rewrite app_assoc. exact S.
Qed.
End Rules.
