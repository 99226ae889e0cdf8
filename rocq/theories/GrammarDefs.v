(** * GrammarDefs: the rules of the grammar, conditionals and definitions *)
From Verif Require Import Base Float Tokens Ast Ctx Locator Lexer Parser SpecLex ReaderProof Utf8Facts LexBase GapProof LocatorProof LexTokens LexCur Evals Ends SpecGrammar GrammarBase GrammarFirst GrammarTree GrammarSem GrammarAtoms GrammarExprs GrammarStmts GrammarLists GrammarChain.
From Coq Require Import Lia ZifyBool.

(** the same at the end of a function *)
Ltac tail1 H := cbv beta; eapply ends_imp; [eapply H; [reflexivity|eassumption|]|
  let e1 := fresh "e" in let c1 := fresh "c" in let S := fresh "S" in let E := fresh "E" in let A := fresh "A" in intros e1 c1 (S & E & A)].

(** the end of a definition *)
Ltac dfin := match goal with S : GrammarBase.st _ _ _ (_ ++ [strip ?d]) _ _ ?c |- GrammarBase.st _ _ _ (_ ++ defs ?e) _ _ ?c /\ _ =>
  let X := fresh "X" in assert (X : strip d = e) by (unfold in_scope; cbn [strip map option_map]; congruence); rewrite X in S; split; [same_defs S|split; [exact X|exact Logic.I]] end.

Section Rules.
Variables (o : opts) (m : mode).
Hypothesis Hfac : o_factory o = true.
Hypothesis Hm : lawful o m.
Notation st := (st o m).
Notation sem := (sem o m).
Notation sem1 := (sem1 o m).
Notation semL := (semL o m).
Notation semC := (semC o m).
Notation semO := (semO o m).
Notation listed := (listed o m).
Notation rel_done := (@rel_done o m Hfac).
Notation op_done := (@op_done o m Hfac).
Notation sem_braces := (@sem_braces o m Hfac Hm).

(** ** Conditionals *)
Lemma sem_if_then u ns k ts1 c ts2 b ts3 e : sem (Op 9) ns ts1 [c] -> sem Block ns ts2 [b] -> sem (Else u) ns ts3 [e] -> sem (If u) ns (k :: ts1 ++ ts2 ++ ts3) [EIf z u c b e].
Proof.
  intros H1 H2 H3 HE. apply op_done in H1; [|lia]. destruct (block_first H2) as (kb & tsb & -> & Hb). apply sem_braces in H2. one. cbn [tok_of] in HE.
  apply ends_rec. cbn [body]. unfold if_body. g1. g1. call1 H1; [stop|]. rewrite app_comm_cons in S. call1 H2; [exact Logic.I|].
  match goal with |- ends _ _ ?Q2 => set (QQ := Q2) end.
  apply (@ends_same _ _ (fun r => bind (else_part u r) (fun els => p <- span (c_tsp c1) ;; ret (EIf p u e0 e1 els)))); [reflexivity|]. unfold QQ. clear QQ. call1 H3; [exact HA|]. g. fin.
Qed.
Lemma sem_no_else u ns : sem (Else u) ns [] [ENop z].
Proof. one. unfold else_part. g1. dflt (fun _ : recT => ts <- tokStart ;; ret (ENop (mkpos ts 0))) HA rest. g. fin. Qed.
Lemma sem_else u ns k ts b : is TElse k -> sem Block ns ts [b] -> sem (Else u) ns (k :: ts) [b].
Proof. intros Hk H. apply sem_braces in H. one. unfold else_part. g1. g1. tail1 H; [exact Logic.I|]. auto. Qed.
Lemma sem_elsif ns k ts e : is TElsif k -> sem (If false) ns (k :: ts) [e] -> sem (Else false) ns (k :: ts) [e].
Proof.
  intros Hk H. assert (Hn : tok_of (k :: ts) <> TEnd) by (cbn; rewrite Hk; discriminate). specialize (H Hn). one. unfold else_part. g1. rewrite app_comm_cons in S. call1 H; [exact HA|]. auto.
Qed.
(** ** Case *)
Lemma case_option ns ts1 vs k ts2 b : sem (ListOf Expression) ns ts1 vs -> is TColon k -> sem Block ns ts2 [b] ->
  sem1 anything (fun r => caseOption r) ns (ts1 ++ k :: ts2) [ECaseOption z vs b].
Proof.
  intros H1 Hk H2. apply sem_braces in H2. one. unfold caseOption. g1. callL H1. g1. call1 H2; [exact Logic.I|]. g. fin.
Qed.
Lemma sem_options_one ns ts1 vs k ts2 b : sem (ListOf Expression) ns ts1 vs -> is TColon k -> sem Block ns ts2 [b] -> sem Options ns (ts1 ++ k :: ts2) [ECaseOption z vs b].
Proof.
  intros H1 Hk H2 acc c0 ds c rest S HR. pose proof (case_option H1 Hk H2) as H. apply ends_rec. cbn [body]. unfold caseOptions_body. call1 H; [exact Logic.I|]. g1. rewrite HR. red_tok. g.
  split; [sd|]. exists [e]. split; [reflexivity|]. cbn [map]. congruence.
Qed.
Lemma sem_options_more ns ts1 vs k ts2 b ts3 os : firsts Options ts3 os -> sem (ListOf Expression) ns ts1 vs -> is TColon k -> sem Block ns ts2 [b] -> sem Options ns ts3 os ->
    sem Options ns (ts1 ++ k :: ts2 ++ ts3) (ECaseOption z vs b :: os).
Proof.
  intros HF H1 Hk H2 H3 acc c0 ds c rest S HR. pose proof (case_option H1 Hk H2) as H. replace (ts1 ++ k :: ts2 ++ ts3) with ((ts1 ++ k :: ts2) ++ ts3) in S by (rewrite <- app_assoc; reflexivity).
  rewrite <- app_assoc in S. destruct (firsts_one HF eq_refl) as [Hne Hf]. cbn [first] in Hf.
  apply ends_rec. cbn [body]. unfold caseOptions_body. call1 H; [exact Logic.I|]. g1. rewrite (tok_of_app _ Hne), shown_not by (intros X; rewrite X in Hf; discriminate Hf). destruct (tok_eqb_spec (tok_of ts3) TRc) as [X|_]; [rewrite X in Hf; discriminate Hf|].
  eapply ends_imp; [eapply (H3 (acc ++ [e])); [eassumption|exact HR]|]. intros l c9 (S9 & l1 & -> & El). split; [sd|]. exists (e :: l1). rewrite <- app_assoc. split; [reflexivity|]. cbn [map]. congruence.
Qed.
Lemma sem_case ns k1 ts1 e k2 ts2 os k3 : is TCase k1 -> sem Expression ns ts1 [e] -> is TLc k2 -> sem Options ns ts2 os -> is TRc k3 ->
    sem Atom ns (k1 :: ts1 ++ k2 :: ts2 ++ [k3]) [ECase z e os].
Proof.
  intros H1 H Hk2 H2 Hk3. one. apply ends_rec. cbn [body]. unfold atom_body. g1. g1. g1. unfold caseExpression. g1. g1. call1 H; [stop|]. g1. g1. apply ends_bind.
  eapply ends_imp; [eapply (H2 []); [eassumption|exact Hk3]|]. intros l c9 (S9 & l1 & -> & El). cbn [app]. g. fin.
Qed.
(** ** Definitions *)
Ltac named H := destruct H as [H ?]; cbn [In] in H; destruct H as [H|[H|[]]]; symmetry in H.
Lemma class_name B (kk : recT -> str -> M B) c0 ds ns k rest c n Q : defined_name k n -> st c0 ds ns (k :: rest) c ->
  (forall c1, st c0 ds ns rest c1 -> ends (fun r => kk r n) c1 Q) -> ends (fun r => bind (className r) (kk r)) c Q.
Proof. intros HN S HK. unfold className. apply ends_bind. named HN; g; apply HK; assumption. Qed.
Lemma opt_params B (kk : recT -> list expr -> M B) c0 ds ns ts1 ps rest c Q : sem OptParams ns ts1 ps -> st c0 ds ns (ts1 ++ rest) c -> apart 1 rest -> tok_of rest <> TWslp ->
  (forall l c1, st c0 (ds ++ flat_map defs ps) ns rest c1 -> map strip l = ps -> ends (fun r => kk r l) c1 Q) -> ends (fun r => bind (optParameterList r) (kk r)) c Q.
Proof. intros H S HA HW HK. apply ends_bind. eapply ends_imp; [eapply H; eassumption|]. intros l c1 (S1 & E1). auto. Qed.
Lemma sem_class ns k1 k2 n ts1 ps ts2 b : word "class" TClass k1 -> defined_name k2 n -> sem OptParams (ns ++ [unrooted n]) ts1 ps -> sem Block (ns ++ [unrooted n]) ts2 [b] ->
    sem Atom ns (k1 :: k2 :: ts1 ++ ts2) [EDef z (DClass []) (in_scope ns (unrooted n)) ps b].
Proof.
  intros H1 HN HP H2. destruct (block_first H2) as (kb & tsb & -> & Hb). apply sem_braces in H2. one. apply ends_rec. cbn [body]. unfold atom_body. g1. g1. g1. g1. g1. g1.
  destruct (tok_eqb_spec (k_tok k2) TLc) as [X|_]. { destruct HN as [HN _]. rewrite X in HN. cbn [In] in HN. intuition discriminate. }
  unfold classExpression. eapply (class_name HN); [eassumption|]. intros c2 S2. cbv beta zeta. rewrite trim_unrooted. g1. eapply (opt_params HP); [eassumption|stop|toks; discriminate|].
  intros l c4 S4 El. g1. g1. rewrite app_comm_cons in S4. call1 H2; [exact Logic.I|]. g1. g1. g1. g1.
  dfin.
Qed.
Lemma sem_subclass ns k1 k2 n ts1 ps k3 k4 pn ts2 b : word "class" TClass k1 -> defined_name k2 n -> sem OptParams (ns ++ [unrooted n]) ts1 ps -> is TInherits k3 ->
    defined_name k4 pn \/ is TDefault k4 /\ pn = lit "default" -> sem Block (ns ++ [unrooted n]) ts2 [b] ->
    sem Atom ns (k1 :: k2 :: ts1 ++ k3 :: k4 :: ts2) [EDef z (DClass pn) (in_scope ns (unrooted n)) ps b].
Proof.
  intros H1 HN HP H3 H4 H2. destruct (block_first H2) as (kb & tsb & -> & Hb). apply sem_braces in H2. one. apply ends_rec. cbn [body]. unfold atom_body. g1. g1. g1. g1. g1. g1.
  destruct (tok_eqb_spec (k_tok k2) TLc) as [X|_]. { destruct HN as [HN _]. rewrite X in HN. cbn [In] in HN. intuition discriminate. }
  unfold classExpression. eapply (class_name HN); [eassumption|]. intros c2 S2. cbv beta zeta. rewrite trim_unrooted. g1. eapply (opt_params HP); [eassumption|stop|toks; discriminate|].
  intros l c4 S4 El. g1. g1. g1. destruct H4 as [H4|[H4 Hpn]].
  - g1. destruct (tok_eqb_spec (k_tok k4) TDefault) as [X|_]. { destruct H4 as [H4 _]. rewrite X in H4. cbn [In] in H4. intuition discriminate. }
    eapply (@ends_same _ _ (fun r => bind (className r) (fun x => ret x))). { intros r. unfold bind. destruct (className r c5); reflexivity. }
    eapply (class_name H4); [eassumption|]. intros c6 S6. g1. rewrite app_comm_cons in S6. call1 H2; [exact Logic.I|]. g1. g1. g1. g1. dfin.
  - assert (Hd : tokenMap TDefault = pn) by (rewrite Hpn; reflexivity). g1. g1. g1. rewrite app_comm_cons in S0. call1 H2; [exact Logic.I|]. g1. g1. g1. g1. dfin.
Qed.
Lemma sem_resource_definition ns dk k2 n ts1 ps ts2 b : defined_name k2 n -> sem OptParams ns ts1 ps -> sem Block ns ts2 [b] ->
  forall k1 c0 ds c rest, k_tok k1 <> TEnd -> st c0 ds ns (k1 :: k2 :: ts1 ++ ts2 ++ rest) c -> 
  ends (fun r => resourceDefinition r dk) c (fun e1 c1 => st c0 (ds ++ defs (EDef z dk n ps b)) ns rest c1 /\ strip e1 = EDef z dk n ps b /\ anchored (c_text c0) rest e1).
Proof.
  intros HN HP H2 k1 c0 ds c rest Hk S. destruct (block_first H2) as (kb & tsb & -> & Hb). apply sem_braces in H2. unis. unfold resourceDefinition. g1. g1. eapply (class_name HN); [eassumption|]. intros c2 S2.
  eapply (opt_params HP); [eassumption|stop|toks; discriminate|]. intros l c4 S4 El. call1 H2; [exact Logic.I|]. g1. g1. dfin.
Qed.
Lemma sem_define ns k1 k2 n ts1 ps ts2 b : is TDefine k1 -> defined_name k2 n -> sem OptParams ns ts1 ps -> sem Block ns ts2 [b] -> sem Atom ns (k1 :: k2 :: ts1 ++ ts2) [EDef z DDefine n ps b].
Proof.
  intros H1 HN HP H2. one. apply ends_rec. cbn [body]. unfold atom_body. g1. g1. g1. eapply sem_resource_definition; [eassumption|eassumption|eassumption| |eassumption]. rewrite H1; discriminate.
Qed.
Lemma sem_application ns k1 k2 n ts1 ps ts2 b : is TApplication k1 -> defined_name k2 n -> sem OptParams ns ts1 ps -> sem Block ns ts2 [b] -> sem Atom ns (k1 :: k2 :: ts1 ++ ts2) [EDef z DApplication n ps b].
Proof.
  intros H1 HN HP H2. one. apply ends_rec. cbn [body]. unfold atom_body. g1. g1. g1. eapply sem_resource_definition; [eassumption|eassumption|eassumption| |eassumption]. rewrite H1; discriminate.
Qed.
Lemma return_apart ns ts r rest : sem OptReturn ns ts r -> firsts OptReturn ts r -> apart 1 rest -> tok_of rest <> TWslp -> apart 1 (ts ++ rest) /\ tok_of (ts ++ rest) <> TWslp.
Proof.
  intros _ HF HA HW. destruct HF as [[_ ->]|[Hne Hf]]; [auto|]. cbn [first] in Hf. apply tok_eqb_eq in Hf. destruct ts as [|k ts]; [congruence|]. cbn [tok_of app apart] in *. unfold stops. rewrite Hf. split; [cbn; lia|discriminate].
Qed.
Lemma function_ok ns k1 k2 n ts1 ps ts2 r ts3 b : few r -> firsts OptReturn ts2 r -> is TFunction k1 -> defined_name k2 n -> sem OptParams ns ts1 ps -> sem OptReturn ns ts2 r -> sem Block ns ts3 [b] ->
    sem1 anything (fun r => functionDefinition r) ns (k1 :: k2 :: ts1 ++ ts2 ++ ts3) [EFunc z false n ps b (hd_error r)].
Proof.
  intros Fr HF H1 HN HP HR H2. destruct (block_first H2) as (kb & tsb & -> & Hb). apply sem_braces in H2. one. unfold functionDefinition, definitionName. g1. g1.
  destruct (return_apart (rest := kb :: tsb ++ rest) HR HF) as [HA1 HA2]; [stop|toks; discriminate|].
  destruct HN as [HN Hv]. cbn [In] in HN. destruct HN as [HN|[HN|[]]]; symmetry in HN;
  (g1; g1; apply (@ends_same _ _ (fun r => bind tokenString (fun s => ret s))) ; [intros; unfold bind; destruct (tokenString c1); reflexivity|]; g1; g1; g1; eapply (opt_params HP); [eassumption|exact HA1|exact HA2|];
   intros l c4 S4 El; apply ends_bind; eapply ends_imp; [eapply HR; [eassumption|exact Hb]|]; intros r1 c5 (S5 & Er); rewrite (few_defs Fr) in S5; rewrite app_comm_cons in S5; call1 H2; [exact Logic.I|]; g1; g1; dfin).
Qed.
Lemma sem_function ns k1 k2 n ts1 ps ts2 r ts3 b : few r -> firsts OptReturn ts2 r -> is TFunction k1 -> defined_name k2 n -> sem OptParams ns ts1 ps -> sem OptReturn ns ts2 r -> sem Block ns ts3 [b] ->
    sem Atom ns (k1 :: k2 :: ts1 ++ ts2 ++ ts3) [EFunc z false n ps b (hd_error r)].
Proof.
  intros Fr HF H1 HN HP HR H2. pose proof (function_ok Fr HF H1 HN HP HR H2) as H. intros e E c0 ds c rest S HA. apply ends_rec. cbn [body]. unfold atom_body. unis. g1. g1. g1. exact (H e E c0 ds c rest S Logic.I).
Qed.
Lemma sem_plan ns k1 k2 n ts1 ps ts2 r ts3 b : few r -> firsts OptReturn ts2 r -> is TPlan k1 -> defined_name k2 n -> sem OptParams (ns ++ [n]) ts1 ps -> sem OptReturn (ns ++ [n]) ts2 r -> sem Block (ns ++ [n]) ts3 [b] ->
    sem Atom ns (k1 :: k2 :: ts1 ++ ts2 ++ ts3) [EFunc z true n ps b (hd_error r)].
Proof.
  intros Fr HF H1 HN HP HR H2. destruct (block_first H2) as (kb & tsb & -> & Hb). apply sem_braces in H2. one. apply ends_rec. cbn [body]. unfold atom_body. g1. g1. g1. unfold planDefinition, definitionName. g1. g1.
  destruct (return_apart (rest := kb :: tsb ++ rest) HR HF) as [HA1 HA2]; [stop|toks; discriminate|].
  destruct HN as [HN Hv]. cbn [In] in HN. destruct HN as [HN|[HN|[]]]; symmetry in HN;
  (g1; g1; apply (@ends_same _ _ (fun r => bind tokenString (fun s => ret s))) ; [intros; unfold bind; destruct (tokenString c1); reflexivity|]; g1; g1; g1; g1; eapply (opt_params HP); [eassumption|exact HA1|exact HA2|];
   intros l c4 S4 El; apply ends_bind; eapply ends_imp; [eapply HR; [eassumption|exact Hb]|]; intros r1 c5 (S5 & Er); rewrite (few_defs Fr) in S5; rewrite app_comm_cons in S5; call1 H2; [exact Logic.I|]; g1; g1; g1; dfin).
Qed.
Lemma sem_site ns k1 ts b : is TSite k1 -> sem Block ns ts [b] -> sem Atom ns (k1 :: ts) [ESite z b].
Proof. intros H1 H. apply sem_braces in H. one. apply ends_rec. cbn [body]. unfold atom_body. g1. g1. g1. unfold siteDefinition. g1. g1. call1 H; [exact Logic.I|]. g1. g1. dfin. Qed.
(** ** Nodes *)
Lemma sem_dotted_one ns k s : defined_name k s -> sem Dotted ns [k] [EString z s].
Proof.
  intros HN s' E start names c0 ds c rest S HR. injection E as <-. norm S. apply ends_rec. cbn [body]. unfold dotted_body. named HN; (g1; g1; g1;
    g1; g1; destruct (tok_eqb_spec (tok_of rest) TDot) as [X|_]; [congruence|]; cbn [negb]; g; split; [sd|reflexivity]).
Qed.
Lemma sem_dotted_more ns k s d ts s2 : defined_name k s -> is TDot d -> sem Dotted ns ts [EString z s2] -> sem Dotted ns (k :: d :: ts) [EString z (s ++ "."%ch :: s2)].
Proof.
  intros HN Hd H s' E start names c0 ds c rest S HR. injection E as <-. unis. norm S. apply ends_rec. cbn [body]. unfold dotted_body. named HN; (g1; g1; g1;
    g1; g1; g1;
    eapply ends_imp; [eapply (H s2 eq_refl start (names ++ [s])); [eassumption|exact HR]|]; intros e1 c9 (S9 & E9); split; [exact S9|]; rewrite E9; f_equal; symmetry; exact (@join_snoc (lit ".") names s s2)).
Qed.
Lemma dotted_first ts es : firsts Dotted ts es -> ts <> [].
Proof. intros HF. exact (proj1 (firsts_one HF eq_refl)). Qed.
Lemma sem_host_name ns ts s k ts' : ts = k :: ts' -> (k_tok k = TIdentifier \/ k_tok k = TTypeName) -> sem Dotted ns ts [EString z s] -> sem Host ns ts [EString z s].
Proof.
  intros -> HT H. one. unfold hostname. destruct HT as [HT|HT]; (g1; g1; rewrite app_comm_cons in S; eapply ends_imp; [eapply (H s eq_refl (c_tsp c) []); [exact S|exact HA]|]; intros e1 c9 (S9 & E9);
  split; [cbn [defs]; rewrite app_nil_r; exact S9|]; split; [exact E9|]; destruct e1; try discriminate E9; exact Logic.I).
Qed.
Lemma sem_host_string ns k s : is TString k -> k_val k = VStr s -> sem Host ns [k] [EString z s].
Proof. intros H1 H2. one. unfold hostname. g. fin. Qed.
Lemma sem_host_regexp ns k s : is TRegexp k -> k_val k = VStr s -> sem Host ns [k] [ERegexp z s].
Proof. intros H1 H2. one. unfold hostname. g. fin. Qed.
Lemma sem_host_default ns k : is TDefault k -> sem Host ns [k] [EDefault z].
Proof. intros H1. one. unfold hostname. g. fin. Qed.
Lemma sem_host_concat ns k es : is TConcatenatedString k -> k_val k = VExpr (EConcat z es) -> flat_map defs es = [] -> sem Host ns [k] [EConcat z es].
Proof.
  intros H1 H2 H3. one. destruct (st_tree S H2) as (e1 & Hv & He). unfold hostname, value_expr. g1. g1. apply ends_bind. apply ends_ask. rewrite Hv. cbv beta iota. g.
  split; [cbn [defs]; rewrite H3; same_defs S0|]. split; [exact He|]. destruct e1; try discriminate He. exact Logic.I.
Qed.
Definition hosts_end (rest : list tk) : Prop := tok_of rest = TInherits \/ tok_of rest = TLc.
Lemma sem_hosts_one ns ts h : sem Host ns ts [h] -> sem Hosts ns ts [h].
Proof.
  intros H acc c0 ds c rest S HR. apply ends_rec. cbn [body]. unfold hostnames_body. call1 H; [destruct HR; congruence|]. g1.
  destruct (tok_eqb_spec (tok_of rest) TComma) as [X|_]; [destruct HR; congruence|]. cbn [negb]. g. split; [sd|]. exists [e]. split; [reflexivity|]. cbn [map]. congruence.
Qed.
Lemma sem_hosts_last ns ts h k : sem Host ns ts [h] -> is TComma k -> sem Hosts ns (ts ++ [k]) [h].
Proof.
  intros H Hk acc c0 ds c rest S HR. unis. norm S. apply ends_rec. cbn [body]. unfold hostnames_body. call1 H; [toks; discriminate|]. g1. g1. g1.
  destruct HR as [HR|HR]; rewrite HR; cbn [shown]; g; (split; [sd|]; exists [e]; split; [reflexivity|]; cbn [map]; congruence).
Qed.
Lemma sem_hosts_more ns ts h k ts2 hs : firsts Hosts ts2 hs -> sem Host ns ts [h] -> is TComma k -> sem Hosts ns ts2 hs -> sem Hosts ns (ts ++ k :: ts2) (h :: hs).
Proof.
  intros HF H Hk H2 acc c0 ds c rest S HR. unis. norm S. destruct (firsts_one HF eq_refl) as [Hne Hf]. cbn [first] in Hf. apply ends_rec. cbn [body]. unfold hostnames_body. call1 H; [toks; discriminate|]. g1. g1. g1.
  rewrite (tok_of_app _ Hne). eapply (@ends_same _ _ (fun r => r _ (FHostnames (acc ++ [e])))); [intros r; destruct (tok_of ts2); cbn [shown]; try reflexivity; discriminate Hf|].
  eapply ends_imp; [eapply (H2 (acc ++ [e])); [eassumption|exact HR]|]. intros l c9 (S9 & l1 & -> & El). split; [sd|]. exists (e :: l1). rewrite <- app_assoc. split; [reflexivity|]. cbn [map]. congruence.
Qed.
Lemma sem_no_parent ns : sem OptParent ns [] [].
Proof. intros c0 ds c rest S HA. norm S. unfold parent_part. g1. rewrite HA. red_tok. g. split; [sd|reflexivity]. Qed.
Lemma sem_parent ns k ts h : is TInherits k -> sem Host ns ts [h] -> sem OptParent ns (k :: ts) [h].
Proof. intros Hk H c0 ds c rest S HA. unis. norm S. unfold parent_part. g. call1 H; [rewrite HA; discriminate|]. g. split; [sd|]. cbn. congruence. Qed.
Lemma sem_node ns k1 ts1 hs ts2 p ts3 b : few p -> firsts OptParent ts2 p -> is TNode k1 -> sem Hosts ns ts1 hs -> sem OptParent ns ts2 p -> sem Block ns ts3 [b] ->
    sem Atom ns (k1 :: ts1 ++ ts2 ++ ts3) [ENode z (hd_error p) hs b].
Proof.
  intros Fp HF H1 HH HP H2. destruct (block_first H2) as (kb & tsb & -> & Hb). apply sem_braces in H2. one. apply ends_rec. cbn [body]. unfold atom_body. g1. g1. g1. unfold nodeDefinition. g1. g1. apply ends_bind.
  eapply ends_imp; [eapply (HH []); [eassumption|]|].
  { destruct HF as [[_ ->]|[Hne Hf]]; [right; exact Hb|]. left. rewrite (tok_of_app _ Hne). cbn [first] in Hf. now apply tok_eqb_eq. }
  intros l c2 (S2 & l1 & -> & El). match goal with |- ends _ _ ?Q2 => set (QQ := Q2) end.
  apply (@ends_same _ _ (fun r => bind (parent_part r) (fun parent => b <- braces r ;; p <- span (c_tsp c) ;; addDefinition (ENode p parent ([] ++ l1) b)))); [reflexivity|]. unfold QQ. clear QQ. apply ends_bind.
  eapply ends_imp; [eapply HP; [eassumption|exact Hb]|]. intros p1 c3 (S3 & Ep). rewrite (few_defs Fp) in S3. rewrite app_comm_cons in S3. call1 H2; [exact Logic.I|]. cbn [app]. g1. g1. dfin.
Qed.
(** ** Types *)
Lemma sem_typedef ns k1 k2 n ts b : word "type" TType k1 -> is TTypeName k2 -> k_val k2 = VStr n -> sem Block ns ts [b] -> sem Atom ns (k1 :: k2 :: ts) [ETypeDef z n [] b].
Proof.
  intros H1 Hk2 Hn H. pose proof (@sem_type_name o m Hfac Hm ns k2 n Hk2 Hn) as HT. destruct (H b eq_refl) as ((out & ->) & k3 & ts4 & k4 & -> & Hk3 & Hk4 & HB). one. apply ends_rec. cbn [body]. unfold atom_body. g1. g1. g1. g1. g1. g1. unfold typeAliasOrDefinition. g1. apply ends_bind.
  eapply ends_imp; [eapply HT; [reflexivity|cbn [app]; eassumption|stop]|]. intros e1 c2 (S2 & E2). destruct e1; try discriminate E2. injection E2 as ->. g1. cbv iota zeta.
  eapply (ends_nextp Hfac Hm S2); [nend|]. intros c3 S3 P3. rewrite Hk3 in P3. apply ends_bind. eapply ends_imp; [exact (HB _ _ _ rest S3 P3)|]. intros e1 c4 (S4 & E4). g1. g1. g1. dfin.
Qed.
Lemma sem_subtype ns k1 k2 n k3 k4 pn ts b : word "type" TType k1 -> is TTypeName k2 -> k_val k2 = VStr n -> is TInherits k3 -> is TTypeName k4 -> k_val k4 = VStr pn -> sem Block ns ts [b] ->
    sem Atom ns (k1 :: k2 :: k3 :: k4 :: ts) [ETypeDef z n pn b].
Proof.
  intros H1 Hk2 Hn Hk3 Hk4 Hpn H. pose proof (@sem_type_name o m Hfac Hm ns k2 n Hk2 Hn) as HT. destruct (H b eq_refl) as ((out & ->) & k5 & ts4 & k6 & -> & Hk5 & Hk6 & HB). one. apply ends_rec. cbn [body]. unfold atom_body. g1. g1. g1. g1. g1. g1. unfold typeAliasOrDefinition. g1. apply ends_bind.
  eapply ends_imp; [eapply HT; [reflexivity|cbn [app]; eassumption|stop]|]. intros e1 c2 (S2 & E2). destruct e1; try discriminate E2. injection E2 as ->. g1. cbv iota zeta. g1. unfold typeName. g1. g1. g1. g1. g1. g1. g1. cbv iota. g1.
  match goal with S : GrammarBase.st _ _ _ _ _ _ ?c |- ends _ ?c _ => eapply (ends_nextp Hfac Hm S) end; [nend|]. intros c8 S8 P8. rewrite Hk5 in P8. apply ends_bind. eapply ends_imp; [exact (HB _ _ _ rest S8 P8)|]. intros e1 c9 (S9 & E9). g1. g1. g1. dfin.
Qed.
End Rules.
