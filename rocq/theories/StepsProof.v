(** * StepsProof: workflows are parsed as they were written *)
From Verif Require Import Base Float Tokens Ast Ctx Lexer Parser Api SpecLex SpecGrammar SpecManifest SpecOps SpecSteps GrammarTop GrammarSpace GrammarUse GrammarOps GrammarCalls.
From Coq Require Import Lia ZifyBool.

Definition given_ops (v : given) : optree := match v with Var w => OVar w | Number n => OInt n end.
Definition name_tok (first : bool) (n : str) : tk := mk first TIdentifier (VStr n) 0 n.
Definition arrow : tk := mk false TFarrow VNil 0 (lit "=>").
Definition comma : tk := mk false TComma VNil 0 (lit ",").
Definition lbrace : tk := mk false TLc VNil 0 (lit "{").
Definition rbrace : tk := mk false TRc VNil 0 (lit "}").
Fixpoint settings_toks (l : settings) : list tk :=
  match l with
  | [] => []
  | [(n, v)] => name_tok false n :: arrow :: toks (given_ops v) false
  | (n, v) :: rest => (name_tok false n :: arrow :: toks (given_ops v) false) ++ comma :: settings_toks rest
  end.
Definition step_toks (first : bool) (style : string) (n : str) (ps : settings) (inside : list tk) : list tk :=
  name_tok first (lit style) :: name_tok false n :: lbrace :: settings_toks ps ++ rbrace :: [] ++ (lbrace :: inside ++ [rbrace]).
Fixpoint flow_toks (first : bool) (f : flow) : list tk :=
  match f with
  | Action n ps => step_toks first "action" n ps []
  | Resource n ps state => step_toks first "resource" n ps (settings_toks state)
  | Workflow n ps steps => step_toks first "workflow" n ps (flat_map (flow_toks false) steps)
  end.
Fixpoint flow_all (P : flow -> Prop) (HA : forall n ps, P (Action n ps)) (HR : forall n ps state, P (Resource n ps state))
  (HW : forall n ps steps, Forall P steps -> P (Workflow n ps steps)) (f : flow) : P f :=
  match f with
  | Action n ps => HA n ps
  | Resource n ps state => HR n ps state
  | Workflow n ps steps => HW n ps steps ((fix go l : Forall P l := match l with [] => Forall_nil P | f :: l => Forall_cons f (flow_all HA HR HW f) (go l) end) steps)
  end.
Lemma steps_proper steps : fold_right (fun f P => proper_flow f /\ P) True steps -> Forall proper_flow steps.
Proof. induction steps as [|f l IH]; intros H; [constructor|]. destruct H. constructor; auto. Qed.
(** ** The texts *)
Lemma given_text v : texts (toks (given_ops v) false) = [given_word v].
Proof. destruct v; reflexivity. Qed.
Lemma settings_text l : texts (settings_toks l) = settings_words l.
Proof.
  induction l as [|[n v] [|p l] IH]; [reflexivity|destruct v; reflexivity|].
  change (settings_toks ((n, v) :: p :: l)) with ((name_tok false n :: arrow :: toks (given_ops v) false) ++ comma :: settings_toks (p :: l)).
  change (settings_words ((n, v) :: p :: l)) with ([n; lit "=>"; given_word v; lit ","] ++ settings_words (p :: l)).
  rewrite <- IH. unfold texts. rewrite map_app. destruct v; reflexivity.
Qed.
Lemma step_text first s n ps i w : texts i = w -> texts (step_toks first s n ps i) = step_words s n ps w.
Proof. intros <-. unfold step_toks, step_words. rewrite <- settings_text. unfold texts. cbn [map app]. rewrite map_app. cbn [map app]. rewrite map_app. reflexivity. Qed.
Lemma flow_text f : forall first, texts (flow_toks first f) = flow_words f.
Proof.
  induction f as [n ps|n ps state|n ps steps IH] using flow_all; intros first; cbn [flow_toks flow_words]; apply step_text; [reflexivity|apply settings_text|].
  induction IH as [|f l H _ IHl]; [reflexivity|]. cbn [flat_map]. unfold texts in *. rewrite map_app, IHl. f_equal. apply H.
Qed.
(** ** They are tokens *)
Section Ok.
Variable o : opts.
Lemma settings_ok l : Forall proper_setting l -> forall prev, prev <> None -> ok o prev (settings_toks l).
Proof.
  induction 1 as [|[n v] l [[Hn Hr] Hv] _ IH]; intros prev HP; [exact Logic.I|]. cbn [fst snd] in *.
  assert (HL : legal (given_ops v)) by (destruct v; exact Hv).
  assert (X : forall r, ok o (last_tok (Some TFarrow) (toks (given_ops v) false)) r -> ok o prev ((name_tok false n :: arrow :: toks (given_ops v) false) ++ r)).
  { intros r HR. cbn [app]. apply mk_ok; [apply tt_name; assumption|intros _; exact HP|discriminate|intros; exact Logic.I|discriminate|discriminate|].
    apply mk_ok; [apply (tt_punct o); vm_compute; tauto|discriminate|discriminate|intros; exact Logic.I|discriminate|discriminate|].
    apply ok_app; [|exact HR]. apply (@toks_good o _ HL false (Some TFarrow)). discriminate. }
  destruct l as [|p l]; [specialize (X [] Logic.I); rewrite app_nil_r in X; exact X|].
  change (settings_toks ((n, v) :: p :: l)) with ((name_tok false n :: arrow :: toks (given_ops v) false) ++ comma :: settings_toks (p :: l)).
  apply X. apply mk_ok; [apply (tt_punct o); vm_compute; tauto|intros _; apply last_some; discriminate|discriminate|intros; exact Logic.I|discriminate|discriminate|]. apply IH. discriminate.
Qed.
Lemma lbrace_ok prev r : prev <> None -> prev <> Some TQmark -> ok o (Some TLc) r -> ok o prev (lbrace :: r).
Proof. intros H Q X. apply mk_ok; [apply (tt_punct o); vm_compute; tauto|intros _; exact H|discriminate|intros; exact Q|discriminate|discriminate|exact X]. Qed.
Lemma rbrace_ok prev r : prev <> None -> ok o (Some TRc) r -> ok o prev (rbrace :: r).
Proof. intros H X. apply mk_ok; [apply (tt_punct o); vm_compute; tauto|intros _; exact H|discriminate|intros; exact Logic.I|discriminate|discriminate|exact X]. Qed.
Lemma step_ok first s n ps i prev : In s ["action"; "resource"; "workflow"]%string -> plain_name n -> Forall proper_property ps -> ok o (Some TLc) i -> fits first prev ->
  ok o prev (step_toks first s n ps i) /\ last_tok prev (step_toks first s n ps i) = Some TRc.
Proof.
  intros Hs [Hn Hr] HP HI HF. split.
  - unfold step_toks. apply mk_ok; [apply tt_name| | |intros; exact Logic.I|discriminate|discriminate|].
    + cbn [In] in Hs. repeat (destruct Hs as [<-|Hs]; [apply q_one; [unfold lower; cbn; lia|repeat constructor; unfold wordchar, lower; cbn; lia]|]). destruct Hs.
    + cbn [In] in Hs. repeat (destruct Hs as [<-|Hs]; [vm_compute; intuition discriminate|]). destruct Hs.
    + intros ->. exact HF.
    + intros ->. exact HF.
    + apply mk_ok; [apply tt_name; assumption|discriminate|discriminate|intros; exact Logic.I|discriminate|discriminate|].
      apply lbrace_ok; [discriminate|discriminate|]. apply ok_app; [apply settings_ok; [|discriminate]|].
      { eapply Forall_impl; [|exact HP]. intros p [H _]. exact H. }
      apply rbrace_ok; [apply last_some; discriminate|]. cbn [app]. apply lbrace_ok; [discriminate|discriminate|]. apply ok_app; [exact HI|]. apply rbrace_ok; [apply last_some; discriminate|exact Logic.I].
  - unfold step_toks, last_tok. cbn [fold_left]. rewrite fold_left_app. cbn [fold_left app]. rewrite fold_left_app. reflexivity.
Qed.
Lemma flow_ok f : proper_flow f -> forall first prev, fits first prev -> ok o prev (flow_toks first f) /\ last_tok prev (flow_toks first f) = Some TRc.
Proof.
  induction f as [n ps|n ps state|n ps steps IH] using flow_all; cbn [proper_flow flow_toks]; intros H first prev HF.
  - destruct H as [H1 H2]. apply step_ok; [cbn; auto|exact H1|exact H2|exact Logic.I|exact HF].
  - destruct H as (H1 & H2 & H3). apply step_ok; [cbn; auto|exact H1|exact H2|apply settings_ok; [exact H3|discriminate]|exact HF].
  - destruct H as (H1 & H2 & H3). apply step_ok; [cbn; auto|exact H1|exact H2| |exact HF]. apply steps_proper in H3. clear - IH H3.
    assert (X : forall prev, prev <> None -> ok o prev (flat_map (flow_toks false) steps)); [|apply X; discriminate].
    induction IH as [|f l Hf _ IHl]; intros prev HP; [exact Logic.I|]. inversion H3; subst. cbn [flat_map]. destruct (Hf H1 false prev HP) as [A B]. apply ok_app; [exact A|]. rewrite B. apply IHl; [assumption|discriminate].
Qed.
Lemma flows_ok f fs : Forall proper_flow (f :: fs) -> ok o None (flow_toks true f ++ flat_map (flow_toks false) fs).
Proof.
  intros H. inversion H as [|? ? H1 H2]; subst. destruct (flow_ok H1 (first := true) (prev := None) eq_refl) as [A B]. apply ok_app; [exact A|]. rewrite B.
  assert (X : forall prev, prev <> None -> ok o prev (flat_map (flow_toks false) fs)); [|apply X; discriminate].
  clear - H2. induction H2 as [|f l Hf _ IHl]; intros prev HP; [exact Logic.I|]. cbn [flat_map]. destruct (flow_ok Hf (first := false) (prev := prev) HP) as [A B]. apply ok_app; [exact A|]. rewrite B. apply IHl. discriminate.
Qed.
End Ok.
(** ** The derivation *)
Definition set_tree (g : given -> expr) (p : str * given) : expr := EKeyed z (EQName z (fst p)) (g (snd p)).
Lemma given_shown v : shown (given_ops v) = given_tree v.
Proof. destruct v; reflexivity. Qed.
Lemma given_derive wf ns v : proper_given v -> D wf ns Rel (toks (given_ops v) false) [given_tree v].
Proof. intros H. rewrite <- given_shown. apply rel_of. destruct v; exact H. Qed.
Lemma settings_derive wf ns nt l : Forall (fun p => D wf ns nt (name_tok false (fst p) :: arrow :: toks (given_ops (snd p)) false) [set_tree given_tree p]) l ->
  D wf ns (ListOf nt) (settings_toks l) (map (set_tree given_tree) l).
Proof.
  induction 1 as [|[n v] l H _ IH]; [constructor|]. cbn [map]. destruct l as [|p l]; [apply l_one; exact H|].
  change (settings_toks ((n, v) :: p :: l)) with ((name_tok false n :: arrow :: toks (given_ops v) false) ++ comma :: settings_toks (p :: l)).
  apply l_more; [exact H|reflexivity|exact IH].
Qed.
Lemma properties_derive wf ns ps : Forall proper_property ps -> D wf ns (ListOf StepProp) (settings_toks ps) (map (set_tree given_tree) ps).
Proof.
  intros H. apply settings_derive. eapply Forall_impl; [|exact H]. intros [n v] [[Hn Hv] [N1 N2]]. cbn [fst snd] in *.
  apply sp_property; [left; split; reflexivity|exact N1|exact N2|reflexivity|]. pose proof (@given_derive wf ns v Hv) as X.
  destruct v; cbn [given_ops toks] in *; (apply h_rel; [vm_compute; intuition discriminate|exact X]).
Qed.
Lemma state_derive wf ns ps : Forall proper_setting ps -> D wf ns (ListOf StateAttr) (settings_toks ps) (map (set_tree given_tree) ps).
Proof.
  intros H. apply settings_derive. eapply Forall_impl; [|exact H]. intros [n v] [Hn Hv]. cbn [fst snd] in *.
  apply sa_attr; [left; split; reflexivity|reflexivity|]. destruct v as [w|i]; cbn [given_ops toks]; (apply x_select, s_op, atom_op; [|reflexivity|lia]); [apply a_var|apply a_int]; reflexivity.
Qed.
Lemma step_style s st : In (s, st) step_styles -> forall first, style_word (name_tok first (lit s)) st.
Proof. intros H first. exists s. split; [exact H|]. split; reflexivity. Qed.
Lemma step_derive wf ns st first s n ps i b : Forall proper_property ps -> D wf (inside ns st n) (StepBody st) (lbrace :: i ++ [rbrace]) b ->
  exists ts, step_toks first s n ps i = name_tok first (lit s) :: name_tok false n :: ts
    /\ D wf ns (StepOf st n) ts [EStep z (in_scope ns n) st (settings_tree given_tree ps) (hd_error b)].
Proof.
  intros HP HB. eexists. split; [reflexivity|].
  pose proof (@step_parts wf ns st n lbrace (settings_toks ps) (map (set_tree given_tree) ps) rbrace [] [] (lbrace :: i ++ [rbrace]) b) as X.
  assert (E : hash_of (map (set_tree given_tree) ps ++ []) = settings_tree given_tree ps) by (rewrite app_nil_r; destruct ps; reflexivity). rewrite E in X.
  apply X; [reflexivity|apply properties_derive; exact HP|reflexivity|constructor|exact HB].
Qed.
Definition flow_style (f : flow) : string * style := match f with Action _ _ => ("action", SAction) | Resource _ _ _ => ("resource", SResource) | Workflow _ _ _ => ("workflow", SWorkflow) end%string.
Lemma deferred_set p : deferred (set_tree given_tree p) = set_tree deferred_tree p.
Proof. destruct p as [n []]; reflexivity. Qed.
Lemma set_defs l : flat_map defs (map (set_tree given_tree) l) = [].
Proof. induction l as [|[n []] l IH]; [reflexivity|exact IH|exact IH]. Qed.
Lemma flow_derive wf f : proper_flow f -> forall ns first, exists n ts, flow_toks first f = name_tok first (lit (fst (flow_style f))) :: name_tok false n :: ts
  /\ D wf ns (StepOf (snd (flow_style f)) n) ts [flow_tree ns f].
Proof.
  induction f as [n ps|n ps state|n ps steps IH] using flow_all; cbn [proper_flow flow_toks flow_style fst snd flow_tree]; intros H ns first; exists n.
  - destruct H as [H1 H2]. apply (@step_derive wf ns SAction first "action" n ps [] [EBlock z []]); [exact H2|]. apply sb_block; [auto|]. apply (@b_braces wf _ lbrace [] rbrace [] []); try constructor.
  - destruct H as (H1 & H2 & H3). destruct (@step_derive wf ns SResource first "resource" n ps (settings_toks state) (match map (set_tree given_tree) state with [] => [] | _ => [EHash z (map deferred (map (set_tree given_tree) state))] end) H2) as (ts & E & HD).
    { apply sb_state; [reflexivity|apply state_derive; exact H3|reflexivity|apply set_defs]. }
    exists ts. split; [exact E|]. replace (hd_error _) with (settings_tree deferred_tree state) in HD; [exact HD|]. destruct state as [|p state]; [reflexivity|].
    cbn [map hd_error settings_tree]. rewrite deferred_set, map_map. unfold set_tree at 1. f_equal. f_equal. f_equal. apply map_ext. intros q. symmetry. apply deferred_set.
  - destruct H as (H1 & H2 & H3). apply steps_proper in H3.
    destruct (@step_derive wf ns SWorkflow first "workflow" n ps (flat_map (flow_toks false) steps) (match map (flow_tree (ns ++ [n])) steps with [] => [] | _ => [EBlock z (map (flow_tree (ns ++ [n])) steps)] end) H2) as (ts & E & HD).
    { apply sb_steps; [reflexivity| |reflexivity]. cbn [inside]. clear - IH H3. induction IH as [|f l Hf _ IHl]; [constructor|]. inversion H3; subst. cbn [flat_map map].
      destruct (Hf H1 (ns ++ [n]) false) as (m & ts & E & HD). rewrite E. cbn [app].
      apply (@steps_step wf _ _ (snd (flow_style f)) _ m ts); [apply step_style; destruct f; cbn; auto|left; split; reflexivity|exact HD|apply IHl; assumption]. }
    exists ts. split; [exact E|]. replace (hd_error _) with (match steps with [] => None | _ => Some (EBlock no_pos (map (flow_tree (ns ++ [n])) steps)) end) in HD; [exact HD|]. destruct steps; reflexivity.
Qed.
Lemma flow_stmt f ns first : proper_flow f -> D true ns Stmt (flow_toks first f) [flow_tree ns f].
Proof.
  intros H. destruct (@flow_derive true f H ns first) as (n & ts & -> & HD). apply st_rel, rel_assign, as_resource.
  apply (@r_step true ns _ (snd (flow_style f)) _ n ts); [reflexivity|apply step_style; destruct f; cbn; auto|left; split; reflexivity|exact Logic.I|exact HD].
Qed.
Lemma flow_apart n fs : apart n (flat_map (flow_toks false) fs).
Proof. destruct fs as [|[] fs]; exact Logic.I. Qed.
Lemma flows_derive f fs first : Forall proper_flow (f :: fs) -> D true [] Stmts (flow_toks first f ++ flat_map (flow_toks false) fs) (map (flow_tree []) (f :: fs)).
Proof.
  intros H. revert f first H. induction fs as [|f2 fs IH]; intros f first H; inversion H; subst; cbn [flat_map map].
  - apply sts_next; [apply flow_stmt; assumption|constructor|exact Logic.I].
  - apply sts_next; [apply flow_stmt; assumption|apply (IH f2 false); assumption|apply (flow_apart 16 (f2 :: fs))].
Qed.
Lemma flow_statements fs : statements (map (flow_tree []) fs) (map (flow_tree []) fs).
Proof.
  induction fs as [|f fs IH]; [constructor|]. cbn [map].
  assert (X : used false (flow_tree [] f) = flow_tree [] f) by (destruct f; reflexivity). rewrite <- X at 2.
  apply sts_other; [intros (m & E & _); destruct f; discriminate E|intros Y; destruct f; destruct Y|exact IH].
Qed.
(** steps inside steps are not definitions; and there is nothing else in them *)
Lemma flow_defs f : forall ns, defs (flow_tree ns f) = [flow_tree ns f].
Proof.
  assert (P : forall ps : settings, opt_flat defs (settings_tree given_tree ps) = []) by (intros [|p ps]; [reflexivity|]; cbn [settings_tree opt_flat]; exact (set_defs (p :: ps))).
  induction f as [n ps|n ps state|n ps steps IH] using flow_all; intros ns; cbn [flow_tree defs]; rewrite P; cbn [app].
  - reflexivity.
  - replace (step_defs defs SResource (settings_tree deferred_tree state)) with (@nil expr); [reflexivity|]. destruct state as [|p state]; [reflexivity|]. cbn [settings_tree step_defs opt_flat defs].
    symmetry. generalize (p :: state). induction l as [|[m []] l IHl]; [reflexivity|exact IHl|exact IHl].
  - replace (step_defs _ _ _) with (@nil expr); [reflexivity|]. destruct steps as [|f steps]; [reflexivity|]. cbn [step_defs]. symmetry.
    induction IH as [|g l Hg _ IHl]; [reflexivity|]. cbn [map flat_map]. rewrite IHl. unfold inner_defs. specialize (Hg (ns ++ [n])). destruct g; cbn [flow_tree] in *; rewrite Hg; reflexivity.
Qed.
Lemma flow_words_some f : flow_words f <> [].
Proof. destruct f; discriminate. Qed.
Theorem flows_parse o f fs g : manifests o -> o_workflow o = true -> Forall proper_flow (f :: fs) -> end_gap g ->
  manifest o (join (lit " ") (flat_map flow_words (f :: fs)) ++ g) (map (flow_tree []) (f :: fs)).
Proof.
  intros HP HW HF HG. set (k := mktk g false TEnd VNil 0 []). pose proof (@flows_ok o f fs HF) as HO.
  assert (ET : flat_map flow_words (f :: fs) = texts (flow_toks true f ++ flat_map (flow_toks false) fs)).
  { unfold texts. rewrite map_app. cbn [flat_map]. pose proof (flow_text f true) as X. unfold texts in X. rewrite X. f_equal. clear. induction fs as [|f fs IH]; [reflexivity|]. cbn [flat_map]. rewrite map_app, <- IH. f_equal. symmetry. apply (flow_text f false). }
  rewrite ET. assert (HD : D (o_workflow o) [] Stmts (flow_toks true f ++ flat_map (flow_toks false) fs) (map (flow_tree []) (f :: fs))) by (rewrite HW; apply flows_derive; exact HF). pose proof (@flow_statements (f :: fs)) as HS.
  assert (G : forall k0 l, flow_toks true f ++ flat_map (flow_toks false) fs = k0 :: l -> k_gap k0 = []) by (intros k0 l E; destruct f; cbn [flow_toks step_toks] in E; unfold step_toks in E; cbn [app] in E; injection E as <- _; reflexivity).
  destruct (flow_toks true f ++ flat_map (flow_toks false) fs) as [|k0 ts] eqn:E; [destruct f; discriminate|].
  change g with (k_gap k). rewrite <- (@render_words o k0 ts k HO (G _ _ eq_refl) eq_refl). eapply manifest_of with (n := 0%nat); eauto. apply ok_stream; auto.
Qed.
