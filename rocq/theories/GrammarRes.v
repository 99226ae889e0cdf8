(** * GrammarRes: the rules of the grammar, resources *)
From Verif Require Import Base Float Tokens Ast Ctx Locator Lexer Parser SpecLex ReaderProof Utf8Facts LexBase GapProof LocatorProof LexTokens LexPunct LexCur Evals Ends SpecGrammar GrammarBase GrammarFirst GrammarTree GrammarSem GrammarAtoms GrammarExprs GrammarStmts GrammarLists GrammarChain GrammarDefs.
From Coq Require Import Lia ZifyBool.

Ltac no_style := let w := fresh in let s := fresh in let X := fresh in intros _ (w & s & _ & X); first [discriminate X|congruence|cbn [strip] in X; first [discriminate X|congruence]].
Section Rules.
Variables (o : opts) (m : mode).
Hypothesis Hfac : o_factory o = true.
Hypothesis Hm : lawful o m.
Notation st := (st o m).
Notation sem := (sem o m).
Notation sem1 := (sem1 o m).
Notation semL := (semL o m).
Notation semC := (semC o m).
Notation semO := (semO o m).
Notation listed := (listed o m).

Lemma anchored_strip text ks e1 : match strip e1 with EAccess _ _ _ | EQRef _ _ => False | _ => True end -> anchored text ks e1.
Proof. destruct e1; cbn; intros H; try exact Logic.I; destruct H. Qed.
Ltac anch := apply anchored_strip; match goal with E : strip ?e = _ |- context [strip ?e] => rewrite E; exact Logic.I end.
(** ** Resources with titles *)
(** after the title *)
Lemma body_ok ns k ts2 ops rest c0 ds c t1 : is TColon k -> sem (ListOf AttrOp) ns ts2 ops -> tok_of rest = TSemicolon \/ tok_of rest = TRc -> st c0 ds ns (k :: ts2 ++ rest) c ->
  ends (fun r => resourceBody r (Some t1)) c (fun b c1 => st c0 (ds ++ flat_map defs ops) ns rest c1 /\ strip b = EResBody z (strip t1) ops).
Proof.
  intros Hk H HR S. unis. unfold resourceBody. g1. g1. apply ends_bind. eapply ends_imp; [eapply (H []); [eassumption|exact HR]|]. intros l c9 (S9 & l1 & -> & El). g. split; [exact S9|]. cbn [strip app]. congruence.
Qed.
Lemma sem_body_one ns ts1 t k ts2 ops : sem Expression ns ts1 [t] -> is TColon k -> sem (ListOf AttrOp) ns ts2 ops -> sem Bodies ns (ts1 ++ k :: ts2) [EResBody z t ops].
Proof.
  intros H1 Hk H2 c0 ds c rest S HR. unis. norm S. call1 H1; [stop|]. split; [rewrite (st_tok S0); cbn [tok_of]; rewrite Hk; reflexivity|]. intros acc. apply ends_rec. cbn [body]. unfold bodies_body. g1. apply ends_bind.
  eapply ends_imp; [eapply (body_ok _ Hk H2); [|eassumption]; right; exact HR|]. intros b c9 (S9 & E9). g1. rewrite HR. red_tok. g. split; [sd|]. exists [b]. split; [reflexivity|]. cbn [map]. congruence.
Qed.
Lemma sem_body_last ns ts1 t k ts2 ops k2 : sem Expression ns ts1 [t] -> is TColon k -> sem (ListOf AttrOp) ns ts2 ops -> is TSemicolon k2 ->
    sem Bodies ns (ts1 ++ k :: ts2 ++ [k2]) [EResBody z t ops].
Proof.
  intros H1 Hk H2 Hk2 c0 ds c rest S HR. unis. norm S. call1 H1; [stop|]. split; [rewrite (st_tok S0); cbn [tok_of]; rewrite Hk; reflexivity|]. intros acc. apply ends_rec. cbn [body]. unfold bodies_body. g1. apply ends_bind.
  eapply ends_imp; [eapply (body_ok _ Hk H2); [|eassumption]; left; exact Hk2|]. intros b c9 (S9 & E9). g1. g1. g1. rewrite HR. red_tok. g1. apply ends_rec. cbn [body]. unfold bodies_body. g1. rewrite HR. red_tok. g. split; [sd|]. exists [b]. split; [reflexivity|]. cbn [map]. congruence.
Qed.
Lemma sem_body_more ns ts1 t k ts2 ops k2 ts3 bs : firsts Bodies ts3 bs -> sem Expression ns ts1 [t] -> is TColon k -> sem (ListOf AttrOp) ns ts2 ops -> is TSemicolon k2 -> sem Bodies ns ts3 bs ->
    sem Bodies ns (ts1 ++ k :: ts2 ++ k2 :: ts3) (EResBody z t ops :: bs).
Proof.
  intros HF H1 Hk H2 Hk2 H3 c0 ds c rest S HR. unis. norm S. call1 H1; [stop|]. split; [rewrite (st_tok S0); cbn [tok_of]; rewrite Hk; reflexivity|]. intros acc. apply ends_rec. cbn [body]. unfold bodies_body. g1. apply ends_bind.
  eapply ends_imp; [eapply (body_ok _ Hk H2); [|eassumption]; left; exact Hk2|]. intros b c9 (S9 & E9). g1. g1. g1. destruct (firsts_one HF eq_refl) as [Hne Hf]. cbn [first] in Hf. rewrite (tok_of_app _ Hne), shown_not by (intros X; rewrite X in Hf; discriminate Hf).
  destruct (tok_eqb_spec (tok_of ts3) TRc) as [X|_]; [rewrite X in Hf; discriminate Hf|]. cbn [negb]. g1.
  apply ends_bind. eapply ends_imp; [eapply H3; [eassumption|exact HR]|]. intros t1 c6 (T6 & H6). g1. eapply ends_imp; [exact (H6 (acc ++ [b]))|].
  intros l c7 (S7 & l1 & -> & El). split; [sd|]. exists (b :: l1). rewrite <- app_assoc. split; [reflexivity|]. cbn [map]. congruence.
Qed.
Lemma resource_ok ns k1 ts2 bs k2 rest (form : rform) e start c0 ds c : firsts Bodies ts2 bs -> is TLc k1 -> sem Bodies ns ts2 bs -> ~ starts TMultiply ts2 -> is TRc k2 ->
  st c0 ds ns (k1 :: ts2 ++ k2 :: rest) c ->
  ends (fun r => r expr (FResourceExpr start e form)) c (fun e1 c1 => st c0 (ds ++ flat_map defs bs) ns rest c1 /\ strip e1 = EResource z form (strip e) bs).
Proof.
  intros HF H1 H HN H2 S. unis. destruct (firsts_one HF eq_refl) as [Hne Hf]. cbn [first] in Hf. apply ends_rec. cbn [body]. unfold resourceExpr_body. g1. g1. g1. g1. rewrite (tok_of_app _ Hne).
  destruct (tok_eqb_spec (tok_of ts2) TMultiply) as [X|_]; [exfalso; apply HN; destruct ts2; [congruence|exact X]|]. cbn [negb]. g1. apply ends_bind.
  eapply ends_imp; [eapply H; [eassumption|exact H2]|]. intros t1 c6 (T6 & H6). g1. eapply ends_step; [reflexivity|]. rewrite T6. red_tok. apply ends_bind. eapply ends_imp; [exact (H6 [])|].
  intros l c7 (S7 & l1 & -> & El). g. split; [eassumption|]. cbn [strip app]. congruence.
Qed.
Lemma sem_virtual ns k f ts1 e k1 ts2 bs k2 : firsts Bodies ts2 bs -> is TAt k /\ f = Virtual \/ is TAtat k /\ f = Exported -> sem Primary ns ts1 [e] -> is TLc k1 -> sem Bodies ns ts2 bs -> ~ starts TMultiply ts2 -> is TRc k2 ->
    sem Unary ns (k :: ts1 ++ k1 :: ts2 ++ [k2]) [EResource z f e bs].
Proof.
  intros HF HK H1 Hk1 H HN Hk2. one. apply ends_rec. cbn [body]. unfold unary_body. destruct HK as [[HK ->]|[HK ->]]; unis;
  (g1; g1; g1; call1 H1; [stop|]; g1; eapply ends_imp; [eapply (resource_ok _ _ _ HF Hk1 H HN Hk2); eassumption|]; intros e1 c9 (S9 & E9); fin; anch).
Qed.
Lemma sem_resource_body ns ts1 e k1 ts2 bs k2 : firsts Bodies ts2 bs -> sem Expression ns ts1 [e] -> is TLc k1 -> sem Bodies ns ts2 bs -> ~ starts TMultiply ts2 -> is TRc k2 ->
    sem Resource ns (ts1 ++ k1 :: ts2 ++ [k2]) [EResource z Regular e bs].
Proof.
  intros HF H1 Hk1 H HN Hk2. one. apply (step_of (o := o)). unfold resource. call1 H1; [stop|]. g1. eapply ends_imp; [eapply (resource_ok _ _ _ HF Hk1 H HN Hk2); eassumption|]. intros e1 c9 (S9 & E9).
  split; [fin; anch|]. split; [exact (st_opts S9)|no_style].
Qed.
(** ** Atoms as expressions *)
Definition here (rest : list tk) (c : ctx) : Prop := exists c0 ds ns, st c0 ds ns rest c.
Lemma lift_level rest n c (Q : expr -> ctx -> Prop) : apart 12 rest -> (n <= 8)%nat -> ends (fun r => r expr FUnary) c (fun e c1 => here rest c1 /\ Q e c1) ->
  ends (fun r => r expr (FLevel (level_of n))) c (fun e c1 => here rest c1 /\ Q e c1).
Proof.
  intros HA Hn H. induction n as [|j IH].
  - apply ends_rec. cbn [body]. unfold level_body. apply ends_bind. eapply ends_imp; [exact H|]. intros e c1 ((c0 & ds & ns & S) & HQ).
    apply ends_rec. cbn [body]. unfold levelLoop_body. g1. rewrite (@level_stop o Hfac 0); [|lia|eapply stops_le; [exact (apart_shown m HA)|lia]]. g. split; [exists c0, ds, ns; exact S|exact HQ].
  - specialize (IH ltac:(lia)). apply ends_rec. cbn [body]. unfold level_body. apply ends_bind.
    apply (@ends_same _ _ (fun r => r expr (FLevel (level_of j)))); [intros r; do 8 (destruct j as [|j]; [reflexivity|]); lia|]. eapply ends_imp; [exact IH|]. intros e c1 ((c0 & ds & ns & S) & HQ).
    apply ends_rec. cbn [body]. unfold levelLoop_body. g1. rewrite (@level_stop o Hfac (Datatypes.S j)); [|lia|eapply stops_le; [exact (apart_shown m HA)|lia]]. g. split; [exists c0, ds, ns; exact S|exact HQ].
Qed.
Lemma lift_unary rest c (Q : expr -> ctx -> Prop) : apart 12 rest -> ends (fun r => r expr FUnary) c (fun e c1 => here rest c1 /\ Q e c1) -> ends (fun r => r expr FExpression) c Q.
Proof.
  intros HA H. apply ends_select. unfold select_part. apply ends_bind. eapply ends_imp; [exact (lift_level HA (le_n 8) H)|]. intros e c1 ((c0 & ds & ns & S) & HQ).
  apply ends_rec. cbn [body]. unfold selectLoop_body. g1. pose proof (apart_tok HA) as HT. destruct (tok_eqb_spec (tok_of rest) TQmark) as [X|_]; [rewrite X in HT; cbn in HT; lia|]. g1. eapply (finish_expression Hfac); [exact S|exact HA|exact HQ].
Qed.
Lemma lift_primary k ks rest c (Q : expr -> ctx -> Prop) : apart 12 rest -> here (k :: ks) c -> atom_start (k_tok k) = true ->
  ends (fun r => r expr FPrimary) c (fun e c1 => here rest c1 /\ Q e c1) -> ends (fun r => r expr FExpression) c Q.
Proof.
  intros HA (c0 & ds & ns & S) Hf H. eapply lift_unary; [exact HA|]. apply ends_rec. cbn [body]. unfold unary_body. g1. g1. cbn [tok_of].
  apply (@ends_same _ _ (fun r => r expr FPrimary)); [intros r; destruct (k_tok k); try discriminate Hf; reflexivity|]. exact H.
Qed.
Definition method (e : expr) : Prop := match e with EBin _ KNamedAccess _ _ _ => True | _ => False end.
Lemma stop_primary (e : expr) rest c (Q : expr -> ctx -> Prop) : apart 1 rest -> here rest c -> ~ method e -> Q e c -> ends (fun r => r expr (FPrimaryLoop e)) c Q.
Proof.
  intros HA (c0 & ds & ns & S) HM HQ. apply ends_rec. cbn [body]. unfold primaryLoop_body. g1. apply apart_tok in HA as HT.
  apply (@ends_same _ _ (fun _ : recT => ret e)). { intros r. destruct (tok_of rest); cbn [shown]; try (exfalso; cbn in HT; lia); try (destruct (embedded m)); destruct e; try reflexivity; destruct k; try reflexivity; destruct (HM Logic.I). }
  g. exact HQ.
Qed.
Lemma lift_atom k ks rest c (Q : expr -> ctx -> Prop) : apart 12 rest -> here (k :: ks) c -> atom_start (k_tok k) = true ->
  ends (fun r => r expr FAtom) c (fun e c1 => here rest c1 /\ ~ method e /\ Q e c1) -> ends (fun r => r expr FExpression) c Q.
Proof.
  intros HA HH Hf H. eapply lift_primary; [exact HA|exact HH|exact Hf|]. apply ends_rec. cbn [body]. unfold primary_body. apply ends_bind. eapply ends_imp; [exact H|]. intros e c1 (HR & HM & HQ).
  eapply stop_primary; [eapply apart_le; [exact HA|lia]|exact HR|exact HM|]. auto.
Qed.
(** ** What a template writes *)
Lemma sem_render ns k ts e : is TRenderExpr k -> sem Expression ns ts [e] -> sem Expression ns (k :: ts) [EUn z KRender e].
Proof.
  intros Hk H. one. eapply (@lift_atom k _ rest); [exact HA|exists c0, ds, ns; exact S|rewrite Hk; reflexivity|]. apply ends_rec. cbn [body]. unfold atom_body. g1. g1. g1. g1.
  call1 H; [exact HA|]. g. split; [exists c0; eauto|]. split; [exact (fun X => X)|]. fin.
Qed.
(** ** Resources of classes *)
Lemma sem_resource_class ns k k1 ts2 bs k2 : firsts Bodies ts2 bs -> word "class" TClass k -> is TLc k1 -> sem Bodies ns ts2 bs -> ~ starts TMultiply ts2 -> is TRc k2 ->
    sem Resource ns (k :: k1 :: ts2 ++ [k2]) [EResource z Regular (EQName z (lit "class")) bs].
Proof.
  intros HF H1 Hk1 H HN Hk2. one. apply (step_of (o := o)). unfold resource. apply ends_bind. eapply (@lift_atom k _ (k1 :: ts2 ++ k2 :: rest)); [stop|exists c0, ds, ns; exact S|rewrite H1; reflexivity|].
  apply ends_rec. cbn [body]. unfold atom_body. g1. g1. g1. g1. g1. g1. g1. g1. split; [exists c0, ds, ns; eassumption|]. split; [exact (fun X => X)|]. g1.
  eapply ends_imp; [eapply (resource_ok _ _ _ HF Hk1 H HN Hk2); eassumption|]. intros e1 c9 (S9 & E9). cbn [strip] in E9.
  split; [split; [exact S9|split; [exact E9|anch]]|]. split; [exact (st_opts S9)|no_style].
Qed.
(** ** Collectors *)
Lemma sem_collector ns ts1 e ts2 q : firsts Chain ts1 [e] -> firsts Query ts2 [q] -> sem Chain ns ts1 [e] -> sem Query ns ts2 [q] -> sem Resource ns (ts1 ++ ts2) [ECollect z e q []].
Proof.
  intros HF HF2 H1 H2. one. destruct (firsts_one HF eq_refl) as [Hne Hf]. cbn [first] in Hf. apply (step_of (o := o)). unfold resource. apply ends_bind.
  destruct ts1 as [|k ts1]; [congruence|]. eapply (@lift_primary k _ rest); [eapply apart_le; [exact HA|lia]|exists c0, ds, ns; exact S|exact Hf|].
  destruct (query_apart Hfac rest HF2 (le_n 1)) as [HQ1 HQ2]. eapply H1; [reflexivity|exact S|split; [exact HQ1|intros X; destruct (HQ2 X)]|].
  clear S. intros e1 c1 S1 E1 A1. eapply query_loop; [exact HF2|eauto|]. unfold collectExpression. g1. call1 H2; [exact Logic.I|]. g1. apply ends_bind.
  pose proof (apart_tok HA) as HT. destruct (tok_eqb_spec (tok_of rest) TLc) as [X|_]; [rewrite X in HT; cbn in HT; lia|]. cbn [negb]. g1. g1. g1.
  eapply stop_primary; [eapply apart_le; [exact HA|lia]|exists c0; eauto|exact (fun X => X)|]. split; [exists c0; eauto|]. g1. destruct (tok_eqb_spec (tok_of rest) TLc) as [X|_]; [rewrite X in HT; cbn in HT; lia|].
  g. cbv beta. split; [fin|]. split; [eapply st_opts; eassumption|no_style].
Qed.
(** ** Type aliases *)
(** a type alias whose right hand side is parsed *)
Lemma alias_ok ns k1 k2 n k3 ts e : word "type" TType k1 -> is TTypeName k2 -> k_val k2 = VStr n -> is TAssign k3 ->
  (forall c0 ds c rest, st c0 ds ns (k3 :: ts ++ rest) c -> apart 13 rest -> ends (fun r => alias_body r) c (fun e1 c1 => st c0 (ds ++ defs e) ns rest c1 /\ strip e1 = e)) ->
  sem Resource ns (k1 :: k2 :: k3 :: ts) [ETypeAlias z n e].
Proof.
  intros H1 Hk2 Hn Hk3 H. pose proof (@sem_type_name o m Hfac Hm ns k2 n Hk2 Hn) as HT. one. apply (step_of (o := o)). unfold resource. apply ends_bind.
  eapply (@lift_atom k1 _ rest); [eapply apart_le; [exact HA|lia]|exists c0, ds, ns; exact S|rewrite H1; reflexivity|].
  apply ends_rec. cbn [body]. unfold atom_body. g1. g1. g1. g1. g1. g1. unfold typeAliasOrDefinition. g1. apply ends_bind.
  eapply ends_imp; [eapply HT; [reflexivity|cbn [app]; eassumption|stop]|]. intros e1 c2 (S2 & E2). destruct e1; try discriminate E2. injection E2 as ->. g1. cbv iota zeta. apply ends_bind.
  eapply ends_imp; [eapply H; [eassumption|exact HA]|]. intros e1 c3 (S3 & E3). g1. g1.
  split; [exists c0; eauto|]. split; [exact (fun X => X)|]. g1. pose proof (apart_tok HA) as HX. destruct (tok_eqb_spec (tok_of rest) TLc) as [X|_]; [rewrite X in HX; cbn in HX; lia|]. g1.
  match goal with X : GrammarBase.st _ _ _ _ _ rest ?c1 |- context [GrammarBase.st _ _ _ _ _ rest ?c1] => rename X into S8 end.
  cbn [strip] in S8. rewrite E3 in S8. cbn [defs flat_map] in S8. rewrite ?app_nil_r in S8. split; [|split; [eapply st_opts; eassumption|no_style]]. split; [cbn [defs]; rewrite app_assoc; exact S8|]. split; [cbn [strip]; congruence|exact Logic.I].
Qed.
Lemma defs_alias e : defs (alias_of e) = defs e.
Proof. destruct e; try reflexivity; [apply app_nil_r|]. destruct elements as [|x [|y l]]; try reflexivity. Qed.
Lemma sem_alias ns k1 k2 n k3 ts e : word "type" TType k1 -> is TTypeName k2 -> k_val k2 = VStr n -> is TAssign k3 -> sem Expression ns ts [e] ->
    sem Resource ns (k1 :: k2 :: k3 :: ts) [ETypeAlias z n (alias_of e)].
Proof.
  intros H1 Hk2 Hn Hk3 H. apply alias_ok; auto. intros c0 ds c rest S HA. unis. unfold alias_body. g1. g1. call1 H; [eapply apart_le; [exact HA|lia]|]. cbv zeta.
  pose proof (apart_tok HA) as HX. destruct (tok_eqb_spec (tok_of rest) TLc) as [X|X]; [rewrite X in HX; cbn in HX; lia|].
  destruct e0; cbn [strip] in E; subst e; try (g; split; [eassumption|reflexivity]).
  - g. rewrite defs_alias; split; [eassumption|reflexivity].
  - destruct elements as [|x [|y l]]; g; (rewrite defs_alias; split; [eassumption|reflexivity]).
  - g1. destruct (tok_eqb_spec (tok_of rest) TLc) as [Y|_]; [congruence|]. g. split; [eassumption|reflexivity].
Qed.
Lemma sem_object_type ns k1 k2 n k3 k4 pn k5 ts es k6 : word "type" TType k1 -> is TTypeName k2 -> k_val k2 = VStr n -> is TAssign k3 -> is TTypeName k4 -> k_val k4 = VStr pn ->
    is TLc k5 -> sem (ListOf Entry) ns ts es -> is TRc k6 ->
    sem Resource ns (k1 :: k2 :: k3 :: k4 :: k5 :: ts ++ [k6]) [ETypeAlias z n (inherited pn es)].
Proof.
  intros H1 Hk2 Hn Hk3 Hk4 Hpn Hk5 H Hk6. apply alias_ok; auto. intros c0 ds c rest S HA. pose proof (sem_hash Hfac Hm Hk5 H Hk6) as HH. unis. norm S. unfold alias_body. g1. g1. apply ends_bind.
  eapply (@lift_atom k4 _ (k5 :: ts ++ k6 :: rest)); [stop|exists c0, ds, ns; eassumption|rewrite Hk4; reflexivity|]. apply ends_rec. cbn [body]. unfold atom_body, leaf. g1. g1. g1. g.
  split; [exists c0; eauto|]. split; [exact (fun X => X)|]. cbv zeta. g1. apply ends_bind.
  eapply (@lift_atom k5 _ rest); [eapply apart_le; [exact HA|lia]|exists c0; eauto|rewrite Hk5; reflexivity|].
  rewrite app_comm_cons in S. change (k6 :: rest) with ([k6] ++ rest) in S. rewrite app_assoc in S. eapply ends_imp; [eapply HH; [reflexivity|exact S|eapply apart_le; [exact HA|lia]]|].
  intros e1 c9 (S9 & E9 & A9). split; [exists c0; eauto|]. destruct e1; try discriminate E9. split; [exact (fun X => X)|]. injection E9 as E9. unfold inherited.
  destruct (str_eqb pn (lit "Object") || str_eqb pn (lit "TypeSet")) eqn:EB.
  - g. split; [cbn; rewrite ?app_nil_r; cbn in S9; exact S9|]. cbn. rewrite E9. reflexivity.
  - g. split; [cbn; rewrite ?app_nil_r; cbn in S9; exact S9|]. cbn. rewrite E9. reflexivity.
Qed.
(** ** Defaults and overrides: the tokens in the braces are read twice *)
Lemma again_ok ns k1 k3 ts2 k4 ts3 ops k2 rest c0 ds c :
  is TLc k1 -> is TIdentifier k3 /\ (exists n, k_val k3 = VStr n) \/ is TMultiply k3 -> ts2 = k4 :: ts3 -> is TFarrow k4 \/ is TParrow k4 -> sem (ListOf AttrOp) ns (k3 :: ts2) ops -> is TRc k2 ->
  st c0 ds ns (k1 :: k3 :: ts2 ++ k2 :: rest) c ->
  forall (A : Type) (kk : recT -> Z -> Z -> M A) (x : recT -> Z -> option expr -> M A) QA,
  (forall tp c1, c_text c1 = c_text c0 -> (forall q, ends (fun r => setPos (c_pos c) ;; r unit FNextToken) (with_pos q c1) (fun _ c2 => st c0 ds ns (k3 :: ts2 ++ k2 :: rest) c2)) -> ends (fun r => kk r (c_pos c) tp) c1 QA) ->
  ends (fun r => bind getPos (fun bs => r unit FNextToken ;; tp <- getPos ;; cur <- curTok ;;
    firstTitle <- (if negb (tok_eqb cur TMultiply) then t <- r expr FExpression ;; ret (Some t) else ret None) ;; 
    cur <- curTok ;; if negb (tok_eqb cur TColon) then kk r bs tp else x r bs firstTitle)) c QA.
Proof.
  intros Hk1 Hk3 -> Hk4 H Hk2 S A kk x QA HK. g1. pose proof S as ((p & HP) & Htx & ds1 & Hd & Hs). cbn [app] in HP.
  destruct (next_okp Hfac Hm HP) as (c1 & HE & HC & HD & HT & _). apply ends_bind. eapply ends_ev; [exact HE|]. g1.
  assert (S1 : st c0 ds ns (k3 :: k4 :: ts3 ++ k2 :: rest) c1) by (split; [eexists; exact HC|]; split; [congruence|]; exists ds1; split; [congruence|exact Hs]).
  assert (HR : forall c', c_opts c' = o -> c_nls c' = -1 -> c_names c' = ns -> c_text c' = c_text c -> c_pos c' = c_pos c -> (seen k4 -> k_brk k4 = false -> c_bol c' = c_bol c1) -> c_defs c' = c_defs c ->
    exists c2, evals (fun r => r unit FNextToken) c' tt c2 /\ st c0 ds ns (k3 :: k4 :: ts3 ++ k2 :: rest) c2).
  { intros c' X1 X2 X3 X4 X5 X6 X7. destruct (@relex_ok o m Hfac Hm p ns k1 k3 k4 (ts3 ++ k2 :: rest) c c1 c' HP HC) as (c2 & E2 & P2 & D2 & T2); auto.
    1: destruct Hk3 as [[-> _]| ->]; auto.
    exists c2. split; [exact E2|]. split; [eexists; exact P2|]. split; [congruence|]. exists ds1. split; [congruence|exact Hs]. }
  g1. cbn [tok_of]. destruct Hk3 as [[Hk3 (n & Hn)]|Hk3]; unis; rewrite Hk3; red_tok.
  - apply ends_bind. apply ends_bind. eapply (@lift_atom k3 _ (k4 :: ts3 ++ k2 :: rest)); [destruct Hk4; stop|exists c0, ds, ns; exact S1|rewrite Hk3; reflexivity|].
    apply ends_rec. cbn [body]. unfold atom_body, leaf. g1. g1. apply (ends_val S1); [rewrite Hn; exact Logic.I|]. cbv iota. g1. apply ends_bind. eapply (ends_string S1); [left; exact Hn|]. g1. 
    destruct (next_okp Hfac Hm HC) as (c2 & E2 & P2 & D2 & T2 & B2). apply ends_bind. eapply ends_ev; [exact E2|]. g1.
    assert (S2 : st c0 ds ns (k4 :: ts3 ++ k2 :: rest) c2) by (split; [eexists; exact P2|]; split; [congruence|]; exists ds1; split; [congruence|exact Hs]).
    split; [exists c0, ds, ns; exact S2|]. split; [exact (fun X => X)|]. g1. g1. cbn [tok_of].
    assert (X : tok_eqb (k_tok k4) TColon = false) by (destruct Hk4 as [-> | ->]; reflexivity). rewrite X. cbn [negb].
    apply HK; [congruence|]. intros q0. eapply ends_step; [reflexivity|]. destruct (HR (with_pos (c_pos c) c2)) as (c3 & E3 & S3); try reflexivity; try (cbn [with_pos c_text c_defs]; congruence).
    1-3: destruct P2 as (Y1 & Y2 & _ & _ & _ & Y3 & _); assumption.
    { intros Y1 Y2. apply B2; [destruct Hk4 as [-> | ->]; cbn; auto|exact Y2]. }
    eapply ends_ev; [exact E3|exact S3].
  - g1. g1. apply HK; [congruence|]. intros q0. eapply ends_step; [reflexivity|]. destruct (HR (with_pos (c_pos c) c1)) as (c3 & E3 & S3); try reflexivity; try (cbn [with_pos c_text c_defs]; congruence).
    1-3: destruct HC as (Y1 & Y2 & _ & _ & _ & Y3 & _); assumption.
    eapply ends_ev; [exact E3|exact S3].
Qed.
(** the attributes in braces after a reference *)
Definition override (sh : shape) (e : expr) (ops : list expr) : expr := match sh with ShDefaults => EResDefaults z Regular e ops | _ => EResOverride z Regular e ops end.
Lemma braces_ok ns k1 k3 ts2 k4 ts3 ops k2 rest c0 ds c e sh start :
  is TLc k1 -> is TIdentifier k3 /\ (exists n, k_val k3 = VStr n) \/ is TMultiply k3 -> ts2 = k4 :: ts3 -> is TFarrow k4 \/ is TParrow k4 -> sem (ListOf AttrOp) ns (k3 :: ts2) ops -> is TRc k2 ->
  st c0 ds ns (k1 :: k3 :: ts2 ++ k2 :: rest) c -> sh = ShDefaults \/ sh = ShOverride -> (forall c1, c_text c1 = c_text c0 -> resourceShape e c1 = Ok sh c1) ->
  ends (fun r => r expr (FResourceExpr start e Regular)) c (fun e1 c1 => st c0 (ds ++ flat_map defs ops) ns rest c1 /\ strip e1 = override sh (strip e) ops).
Proof.
  intros Hk1 Hk3 Hts Hk4 H Hk2 S Hsh HSh. apply ends_rec. cbn [body]. unfold resourceExpr_body.
  cbv zeta. eapply (again_ok Hk1 Hk3 Hts Hk4 H Hk2 S). intros tp c1 HT HB. cbv beta.
  eapply ends_step; [reflexivity|]. eapply ends_step; [apply HSh; exact HT|].
  destruct Hsh as [-> | ->]; cbv iota; (apply ends_bind; eapply ends_imp; [exact (HB tp)|]; intros [] c2 S2; apply ends_bind; rewrite app_comm_cons in S2;
    eapply ends_imp; [eapply (H []); [exact S2|right; exact Hk2]|]; intros l c3 (S3 & l1 & -> & El); cbn [app]; unis; g; split; [eassumption|cbn [strip override]; rewrite El; reflexivity]).
Qed.
Lemma sem_overriding sh ns ts1 e k1 k3 ts2 k4 ts3 ops k2 :
  sem Expression ns ts1 [e] -> is TLc k1 -> is TIdentifier k3 /\ (exists n, k_val k3 = VStr n) \/ is TMultiply k3 -> ts2 = k4 :: ts3 -> is TFarrow k4 \/ is TParrow k4 ->
  sem (ListOf AttrOp) ns (k3 :: ts2) ops -> is TRc k2 -> sh = ShDefaults \/ sh = ShOverride ->
  (forall e1 rest c, strip e1 = e -> anchored (c_text c) rest e1 -> resourceShape e1 c = Ok sh c) ->
  sem Resource ns (ts1 ++ k1 :: k3 :: ts2 ++ [k2]) [override sh e ops].
Proof.
  intros H1 Hk1 Hk3 Hts Hk4 H Hk2 Hsh HSh. one. apply (step_of (o := o)). unfold resource. call1 H1; [stop|]. g1.
  eapply ends_imp; [eapply (braces_ok _ Hk1 Hk3 Hts Hk4 H Hk2 S0 Hsh)|].
  - intros c2 T2. eapply HSh; [exact E|]. rewrite T2. exact A.
  - intros e1 c9 (S9 & E9). rewrite E in E9. cbv beta. split; [|split; [exact (st_opts S9)|destruct Hsh as [-> | ->]; cbn [override] in E9; no_style]]. split; [destruct Hsh as [-> | ->]; cbn [override defs]; rewrite app_assoc; exact S9|].
    split; [exact E9|]. apply anchored_strip. rewrite E9. destruct Hsh as [-> | ->]; exact Logic.I.
Qed.
Lemma sem_defaults ns ts1 n k1 k3 ts2 k4 ts3 ops k2 : 
  sem Expression ns ts1 [EQRef z n] -> is TLc k1 -> is TIdentifier k3 /\ (exists n, k_val k3 = VStr n) \/ is TMultiply k3 -> ts2 = k4 :: ts3 -> is TFarrow k4 \/ is TParrow k4 ->
  sem (ListOf AttrOp) ns (k3 :: ts2) ops -> is TRc k2 -> sem Resource ns (ts1 ++ k1 :: k3 :: ts2 ++ [k2]) [EResDefaults z Regular (EQRef z n) ops].
Proof.
  intros H1 Hk1 Hk3 Hts Hk4 H Hk2. apply (@sem_overriding ShDefaults ns ts1 (EQRef z n) k1 k3 ts2 k4 ts3); auto. intros e1 rest c E A. destruct e1; try discriminate E. reflexivity.
Qed.
Lemma access_shape e1 n l rest c : strip e1 = EAccess z (EQRef z n) l -> anchored (c_text c) rest e1 -> resourceShape e1 c = Ok (if str_eqb n (lit "Resource") && (zlen l =? 1) then ShDefaults else ShOverride) c.
Proof.
  intros E A. destruct e1; try discriminate E. injection E as E1 <-. destruct e1; try discriminate E1. injection E1 as ->. cbn [anchored] in A. unfold resourceShape, bind, ask. cbv beta. rewrite A. cbn [of_sum]. unfold ret. unfold zlen. rewrite map_length. reflexivity.
Qed.
Lemma sem_override ns ts1 n l k1 k3 ts2 k4 ts3 ops k2 : 
  sem Expression ns ts1 [EAccess z (EQRef z n) l] -> ~ (n = lit "Resource" /\ zlen l = 1) -> is TLc k1 -> is TIdentifier k3 /\ (exists n, k_val k3 = VStr n) \/ is TMultiply k3 -> ts2 = k4 :: ts3 -> is TFarrow k4 \/ is TParrow k4 ->
  sem (ListOf AttrOp) ns (k3 :: ts2) ops -> is TRc k2 -> sem Resource ns (ts1 ++ k1 :: k3 :: ts2 ++ [k2]) [EResOverride z Regular (EAccess z (EQRef z n) l) ops].
Proof.
  intros H1 HN Hk1 Hk3 Hts Hk4 H Hk2. apply (@sem_overriding ShOverride ns ts1 (EAccess z (EQRef z n) l) k1 k3 ts2 k4 ts3); auto. intros e1 rest c E A. rewrite (access_shape E A).
  destruct (str_eqb_spec n (lit "Resource")) as [X|_]; [|reflexivity]. destruct (Z.eqb_spec (zlen l) 1) as [Y|_]; [|reflexivity]. destruct HN; auto.
Qed.
Lemma sem_all ns ts1 n l k1 k3 ts2 k4 ts3 ops k2 : 
  sem Expression ns ts1 [EAccess z (EQRef z n) [l]] -> n = lit "Resource" -> is TLc k1 -> is TIdentifier k3 /\ (exists n, k_val k3 = VStr n) \/ is TMultiply k3 -> ts2 = k4 :: ts3 -> is TFarrow k4 \/ is TParrow k4 ->
  sem (ListOf AttrOp) ns (k3 :: ts2) ops -> is TRc k2 -> sem Resource ns (ts1 ++ k1 :: k3 :: ts2 ++ [k2]) [EResDefaults z Regular (EAccess z (EQRef z n) [l]) ops].
Proof.
  intros H1 HN Hk1 Hk3 Hts Hk4 H Hk2. apply (@sem_overriding ShDefaults ns ts1 (EAccess z (EQRef z n) [l]) k1 k3 ts2 k4 ts3); auto. intros e1 rest c E A. rewrite (access_shape E A). rewrite HN. reflexivity.
Qed.
End Rules.
