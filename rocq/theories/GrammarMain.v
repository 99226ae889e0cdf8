(** * GrammarMain: every phrase of the grammar is parsed *)
From Verif Require Import Base Float Tokens Ast Ctx Locator Lexer Parser SpecLex ReaderProof Utf8Facts LexBase GapProof LocatorProof LexTokens LexPunct LexCur Evals Ends SpecGrammar GrammarBase GrammarFirst GrammarTree GrammarSem GrammarAtoms GrammarExprs GrammarStmts GrammarLists GrammarChain GrammarDefs GrammarRes GrammarSteps.
From Coq Require Import Lia ZifyBool.

Lemma D_few wf ns n ts es : D wf ns n ts es -> match n with OptType | OptDefault | OptReturn | OptLambda | OptParent | OptAlias | Iteration _ | StepBody _ => few es | _ => True end.
Proof. intros H. destruct H; try exact Logic.I; unfold few; eauto; destruct es; eauto. Qed.
Lemma D_step wf ns s n ts e : D wf ns (StepOf s n) ts [e] -> match e with EStep _ _ _ _ _ => True | _ => False end.
Proof. intros H. inversion H. exact Logic.I. Qed.
Lemma D_ops wf ns n ts es : D wf ns n ts es -> n = ListOf AttrOp -> forall k3 ts2, ts = k3 :: ts2 -> exists k4 ts3, ts2 = k4 :: ts3 /\ (is TFarrow k4 \/ is TParrow k4) /\ (is TIdentifier k3 -> exists n, k_val k3 = VStr n).
Proof.
  assert (X : forall ts es, D wf ns AttrOp ts es -> exists k3 k4 ts3, ts = k3 :: k4 :: ts3 /\ (is TFarrow k4 \/ is TParrow k4) /\ (is TIdentifier k3 -> exists n, k_val k3 = VStr n)).
  { clear. intros ts es H. inversion H; subst.
    - exists k1, k2, ts0. split; [reflexivity|]. split; [auto|]. intros X. unfold is in *. congruence.
    - exists k1, k2, ts0. split; [reflexivity|]. split. { cbn [In] in H1. unfold is. destruct H1 as [H1|[H1|[]]]; injection H1 as <-; auto. }
      intros X. destruct H0 as [[_ H0]|(w & -> & HI)]; [eauto|]. exfalso. unfold is in X. rewrite X in HI. unfold reserved in HI. cbn [In] in HI. intuition discriminate. }
  intros H -> k3 ts2 Ets. inversion H; subst; try discriminate.
  - match goal with K : D wf ns AttrOp _ _ |- _ => destruct (X _ _ K) as (a & b & l & E & Y) end. injection E as -> ->. eauto.
  - match goal with K : D wf ns AttrOp _ _ |- _ => destruct (X _ _ K) as (a & b & l & -> & Y) end. match goal with K : _ = k3 :: ts2 |- _ => injection K as -> <- end. eexists b, _. split; [reflexivity|]. exact Y.
Qed.
Lemma host_dotted wf ns ts s : D wf ns Dotted ts [EString z s] -> tok_of ts = TIdentifier \/ tok_of ts = TTypeName.
Proof. intros H. inversion H; subst; cbn [tok_of]; match goal with H : defined_name _ _ |- _ => destruct H as [H _]; cbn [In] in H; intuition auto end. Qed.

Section Main.
Variables (o : opts) (m : mode).
Hypothesis Hfac : o_factory o = true.
Hypothesis Hm : lawful o m.
Ltac by_rule H := first [eapply (@H o m Hfac Hm)|eapply (@H o m Hfac)|eapply (@H o m)]; eauto.
Lemma start_expr ts (p : tok -> bool) : ts <> [] -> p (tok_of ts) = true -> p TEnd = false -> (forall t, closing t -> p t = false) -> starting ts.
Proof. intros H1 H2 H4 H3. split; [exact H1|]. split; [intros E; rewrite E, H4 in H2; discriminate|]. intros HC. rewrite (H3 _ HC) in H2. discriminate. Qed.
Lemma D_starting wf ns n ts e : D wf ns n ts [e] -> match n with Arg | Entry | SelEntry | Expression | Param | StepProp | StateAttr | ReturnParam | Alias => starting ts | _ => True end.
Proof.
  intros H. destruct n; try exact Logic.I; destruct (firsts_one (D_firsts H Logic.I) eq_refl) as [Hne Hf]; eapply start_expr; try exact Hne; try exact Hf;
    try reflexivity; (intros t Ht; unfold closing in Ht; cbn [In] in Ht; repeat (destruct Ht as [<-|Ht]; [reflexivity|]); destruct Ht).
Qed.
Ltac overriding L := match goal with H : D ?wf ?ns (ListOf AttrOp) (?k3 :: ?ts2) ?ops |- _ =>
  let k4 := fresh "k4" in let ts3 := fresh "ts3" in let E := fresh "E" in let Hk := fresh "Hk4" in let Hv := fresh "Hv" in
  destruct (D_ops H eq_refl eq_refl) as (k4 & ts3 & E & Hk & Hv); eapply (@L o m Hfac Hm) with (k4 := k4) (ts3 := ts3); eauto; intuition auto end.
Theorem D_sem ns n ts es : D (o_workflow o) ns n ts es -> fine n -> sem o m n ns ts es.
Proof.
  intros H. induction H; intros HF; cbn [fine] in HF;
    repeat match goal with H : True -> _ |- _ => specialize (H Logic.I) | H : fine ?n -> _ |- _ => first [specialize (H Logic.I)|specialize (H eq_refl)] end;
    repeat match goal with H : D ?wf ?ns ?n ?ts ?es |- _ =>
      lazymatch goal with F : firsts n ts es |- _ => fail | _ => idtac end; first [pose proof (D_firsts H Logic.I)|pose proof (D_firsts H (eq_refl : fine (ListOf Expression)))] end;
    repeat match goal with H : D ?wf ?ns ?n ?ts ?es |- _ => lazymatch n with OptType => idtac | OptDefault => idtac | OptReturn => idtac | OptLambda => idtac | OptParent => idtac | OptAlias => idtac | Iteration _ => idtac | StepBody _ => idtac end;
      lazymatch goal with F : few es |- _ => fail | _ => pose proof (D_few H : few es) end end.
  (* a_paren *) { by_rule sem_paren. }
  (* a_list *) { by_rule sem_list. }
  (* a_hash *) { by_rule sem_hash. }
  (* a_bool *) { by_rule sem_bool. }
  (* a_int *) { by_rule sem_int. }
  (* a_float *) { by_rule sem_float. }
  (* a_string *) { by_rule sem_string. }
  (* a_concat *) { by_rule sem_concat. }
  (* a_reserved *) { by_rule sem_reserved. }
  (* a_default *) { by_rule sem_default. }
  (* a_regexp *) { by_rule sem_regexp. }
  (* a_undef *) { by_rule sem_undef. }
  (* a_type *) { by_rule sem_type. }
  (* a_name *) { by_rule sem_name. }
  (* a_var *) { by_rule sem_var. }
  (* a_numvar *) { by_rule sem_numvar. }
  (* a_text *) { by_rule sem_text. }
  (* a_if *) { by_rule sem_if. }
  (* a_unless *) { by_rule sem_unless. }
  (* a_case *) { by_rule sem_case. }
  (* a_class *) { by_rule sem_class. }
  (* a_subclass *) { by_rule sem_subclass. }
  (* a_define *) { by_rule sem_define. }
  (* a_application *) { by_rule sem_application. }
  (* a_function *) { by_rule sem_function. }
  (* a_plan *) { by_rule sem_plan. }
  (* a_node *) { by_rule sem_node. }
  (* a_site *) { by_rule sem_site. }
  (* a_typedef *) { by_rule sem_typedef. }
  (* a_subtype *) { by_rule sem_subtype. }
  (* ch_atom *) { by_rule chain_atom. }
  (* ch_call *) { by_rule chain_call. }
  (* ch_type_call *) { by_rule chain_type_call. }
  (* ch_lambda *) { by_rule chain_lambda. }
  (* ch_index *) { by_rule chain_index. }
  (* ch_statement *) { by_rule chain_statement. }
  (* ch_dot *) { by_rule chain_dot. }
  (* ch_dot_type *) { by_rule chain_dot_type. }
  (* ch_collect *) { by_rule chain_collect. }
  (* p_chain *) { by_rule sem_primary. }
  (* u_primary *) { by_rule sem_unary. }
  (* u_minus *) { by_rule sem_minus. }
  (* u_negative_int *) { by_rule sem_negative_int. }
  (* u_negative_float *) { by_rule sem_negative_float. }
  (* u_plus *) { by_rule sem_plus. }
  (* u_not *) { by_rule sem_not. }
  (* u_splat *) { by_rule sem_splat. }
  (* u_virtual *) { by_rule sem_virtual. }
  (* o_unary *) { exact IHD. }
  (* o_up *) { by_rule sem_up. }
  (* o_bin *) { by_rule sem_bin. }
  (* s_op *) { by_rule sem_select. }
  (* s_many *) { by_rule sem_sel_many. }
  (* x_select *) { by_rule sem_expression. }
  (* x_one *) { by_rule sem_one. }
  (* x_render *) { by_rule sem_render. }
  (* r_expression *) { by_rule sem_resource. }
  (* r_resource *) { by_rule sem_resource_body. }
  (* r_class *) { by_rule sem_resource_class. }
  (* r_defaults *) { overriding sem_defaults. }
  (* r_override *) { overriding sem_override. }
  (* r_all *) { overriding sem_all. }
  (* r_collect *) { by_rule sem_collector. }
  (* r_alias *) { by_rule sem_alias. }
  (* r_object *) { by_rule sem_object_type. }
  (* as_resource *) { by_rule sem_assign_none. }
  (* as_assign *) { by_rule sem_assign. }
  (* rel_assign *) { by_rule sem_rel_none. }
  (* rel_edge *) { by_rule sem_edge. }
  (* st_rel *) { by_rule sem_statement. }
  (* st_list *) { by_rule sem_statement_list. inversion H0; discriminate. }
  (* rels_one *) { by_rule sem_rels_one. }
  (* rels_more *) { by_rule sem_rels_more. }
  (* sts_none *) { by_rule sem_no_statements. }
  (* sts_next *) { by_rule sem_next_statement. }
  (* sts_semi *) { by_rule sem_semicolon. }
  (* b_braces *) { by_rule sem_block_braces. }
  (* l_nil *) { destruct n; try exact Logic.I; first [by_rule list_nil|by_rule attrs_nil]. }
  (* l_one *) { pose proof (D_starting H) as HS. destruct n; try exact Logic.I; cbn in HS; try (specialize (IHD Logic.I)).
    - by_rule list_one. cbn [produce]. eapply sem1_weak; [|exact IHD]. intros r Hr. apply closed_apart; [exact Hr|lia].
    - by_rule list_one.
    - by_rule list_one. exact (proj2 IHD).
    - by_rule list_one. cbn [produce]. eapply sem1_weak; [|exact IHD]. intros r Hr. apply closed_apart; [exact Hr|lia].
    - by_rule list_one.
    - by_rule attrs_one. exact (D_firsts H Logic.I).
    - by_rule list_one.
    - by_rule list_one.
    - by_rule list_one. cbn [produce]. eapply sem1_weak; [|exact IHD]. intros; exact Logic.I.
    - by_rule list_one. }
  (* l_more *) { pose proof (D_starting H) as HS. specialize (IHD2 HF). destruct n; try exact Logic.I; cbn in HS; try (specialize (IHD1 Logic.I)).
    - by_rule list_more. cbn [produce]. eapply sem1_weak; [|exact IHD1]. intros r Hr. apply closed_apart; [exact Hr|lia].
    - by_rule list_more.
    - by_rule list_more. exact (proj2 IHD1).
    - by_rule list_more. cbn [produce]. eapply sem1_weak; [|exact IHD1]. intros r Hr. apply closed_apart; [exact Hr|lia].
    - by_rule list_more.
    - by_rule attrs_more. exact (D_firsts H Logic.I).
    - by_rule list_more.
    - by_rule list_more.
    - by_rule list_more. cbn [produce]. eapply sem1_weak; [|exact IHD1]. intros; exact Logic.I.
    - by_rule list_more. }
  (* h_rel *) { by_rule sem_handle. }
  (* h_word *) { by_rule sem_word. }
  (* h_call *) { by_rule sem_word_call. }
  (* arg_plain *) { by_rule sem_argument. }
  (* arg_entry *) { exact (proj1 IHD). }
  (* e_entry *) { by_rule sem_entry. }
  (* se_entry *) { by_rule sem_selector_entry. }
  (* args_parens *) { by_rule sem_arguments. }
  (* param_plain *) { by_rule sem_param. }
  (* ot_none *) { by_rule sem_opt_type_none. }
  (* ot_type *) { by_rule sem_opt_type. }
  (* od_none *) { by_rule sem_no_default. }
  (* od_value *) { by_rule sem_default_value. }
  (* ao_splat *) { by_rule sem_splat_attrs. }
  (* ao_attr *) { by_rule sem_attr. }
  (* op_none *) { by_rule sem_no_params. }
  (* op_params *) { by_rule sem_params. }
  (* or_none *) { by_rule sem_no_return. }
  (* or_type *) { by_rule sem_return. }
  (* t_name *) { by_rule sem_type_name. }
  (* t_args *) { by_rule sem_type_args. }
  (* la_lambda *) { by_rule sem_lambda. }
  (* ol_none *) { by_rule sem_no_lambda. }
  (* ol_lambda *) { by_rule sem_opt_lambda. }
  (* if_then *) { by_rule sem_if_then. }
  (* el_none *) { by_rule sem_no_else. }
  (* el_else *) { by_rule sem_else. }
  (* el_elsif *) { by_rule sem_elsif. }
  (* opt_one *) { by_rule sem_options_one. }
  (* opt_more *) { by_rule sem_options_more. }
  (* bo_one *) { by_rule sem_body_one. }
  (* bo_last *) { by_rule sem_body_last. }
  (* bo_more *) { by_rule sem_body_more. }
  (* q_empty *) { by_rule sem_query_empty. }
  (* q_query *) { by_rule sem_query. }
  (* ho_name *) { pose proof (host_dotted H) as HH. destruct ts as [|k ts]; [cbn in HH; intuition discriminate|]. by_rule sem_host_name. }
  (* ho_string *) { by_rule sem_host_string. }
  (* ho_regexp *) { by_rule sem_host_regexp. }
  (* ho_concat *) { by_rule sem_host_concat. }
  (* ho_default *) { by_rule sem_host_default. }
  (* do_one *) { by_rule sem_dotted_one. }
  (* do_more *) { by_rule sem_dotted_more. }
  (* hs_one *) { by_rule sem_hosts_one. }
  (* hs_last *) { by_rule sem_hosts_last. }
  (* hs_more *) { by_rule sem_hosts_more. }
  (* pa_none *) { by_rule sem_no_parent. }
  (* pa_host *) { by_rule sem_parent. }
  (* r_step *) { pose proof (D_step H3). by_rule sem_step_resource. }
  (* step_parts *) { by_rule sem_step_parts. }
  (* sp_property *) { by_rule sem_property. }
  (* sp_parameters *) { by_rule sem_parameters. }
  (* sp_returns *) { by_rule sem_returns. }
  (* rp_param *) { by_rule sem_return_param. }
  (* oa_none *) { by_rule sem_no_alias. }
  (* oa_one *) { by_rule sem_one_alias. }
  (* oa_many *) { by_rule sem_many_aliases. }
  (* al_name *) { by_rule sem_alias_name. }
  (* it_none *) { by_rule sem_no_iteration. }
  (* it_some *) { by_rule sem_iteration. }
  (* sb_block *) { by_rule sem_body_block. }
  (* sb_state *) { by_rule sem_body_state. }
  (* sb_steps *) { by_rule sem_body_steps. }
  (* sa_attr *) { by_rule sem_state_attr. }
  (* steps_none *) { by_rule sem_no_steps. }
  (* steps_step *) { by_rule sem_step_more. }
  (* steps_function *) { by_rule sem_step_function. }
Qed.
End Main.
