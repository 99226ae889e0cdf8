(** * ShapeLex: the invariant of ShapeBase for the lexer *)
From Verif Require Import Base Float Tokens Ast Ctx Lexer Parser Wp LexFrame SpecVisit SpecValidate SpecShape ShapeBase.

(** the roles of what a producer makes *)
Definition prod_role (p : producer) : expr -> bool :=
  match p with
  | PArgument => fun e => is_expression e || is_pair e
  | PKeyedEntry | PStepProperty | PStateAttribute => is_pair
  | PSelectorEntry => is_selector_entry
  | PExpression | PAttributeAlias => is_expression
  | PParameter | PReturnParameter => is_param
  end.

Section Opts.
Variable o : opts.
Notation G := (G o). Notation GL := (GL o). Notation GO := (GO o). Notation GLO := (GLO o).

Definition args_ok (ns : list str) (ds : list expr) (A : Type) (f : fn A) : Prop :=
  match f with
  | FDelim _ _ _ _ _ _ segs => GLO is_segment ns ds segs
  | FApply _ _ _ _ _ _ segs => GLO is_segment ns ds segs
  | FStatements _ acc => GL is_statement ns ds acc
  | FCommas acc => GL is_expression ns ds acc
  | FExpressions _ p acc => GL (prod_role p) ns ds acc /\ (p = PStepProperty -> o_workflow o = true)
  | FRelLoop e | FAssignLoop e | FSelectLoop e | FLevelLoop _ e | FPrimaryLoop e | FCall e
  | FResourceExpr _ e _ => G is_expression ns ds e
  | FCaseOptions acc => GL is_case_option ns ds acc
  | FBodies title acc => GO is_expression ns ds title /\ GL is_resource_body ns ds acc
  | FAttrOps acc => GL is_attribute ns ds acc
  | FHostnames acc => GL is_host ns ds acc
  | FActivities acc => GL is_expression ns ds acc /\ o_workflow o = true
  | FStepDecl _ _ _ _ => o_workflow o = true
  | FEppLoop acc => GL is_expression ns ds acc /\ o_epp o = true
  | _ => True
  end.
Definition res_ok (ns : list str) (ds : list expr) (A : Type) (f : fn A) : A -> Prop :=
  match f in fn A return A -> Prop with
  | FNextToken => fun _ => True
  | FDelim _ _ _ _ _ _ _ => GLO is_segment ns ds
  | FApply _ _ _ _ _ _ _ => fun r => GLO is_segment ns ds (snd r)
  | FParse _ single => G (if single then is_expression else is_block) ns ds
  | FStatements _ acc => GL is_statement ns ds
  | FCommas acc => fun l => GL is_expression ns ds l /\ (List.length acc <= List.length l)%nat
  | FExpressions _ p acc => GL (prod_role p) ns ds
  | FParameterType => G is_type ns ds
  | FCaseOptions acc => GL is_case_option ns ds
  | FBodies title acc => GL is_resource_body ns ds
  | FAttrOps acc => GL is_attribute ns ds
  | FHostnames acc => GL is_host ns ds
  | FActivities acc => GL is_expression ns ds
  | FDotted _ _ => fun e => G is_expression ns ds e /\ is_host e = true
  | FIf _ => fun e => G is_expression ns ds e /\ is_else e = true
  | FEppLoop acc => G is_epp_lambda ns ds
  | FRelationship | FRelLoop _ | FAssignment | FAssignLoop _ | FExpression | FSelectLoop _
  | FLevel _ | FLevelLoop _ _ | FUnary | FPrimary | FPrimaryLoop _ | FAtom | FCall _
  | FResourceExpr _ _ _ | FStepDecl _ _ _ _ => G is_expression ns ds
  end.
Definition needs (A : Type) (f : fn A) : bool :=
  match f with FNextToken | FDelim _ _ _ _ _ _ _ | FApply _ _ _ _ _ _ _ => false | _ => true end.
Definition gives (A : Type) (f : fn A) : bool :=
  match f with FApply _ _ _ _ _ _ _ => false | _ => true end.
Definition respects (rec : forall A, fn A -> M A) : Prop :=
  forall A (f : fn A) ns ds c, St o (needs f) ns ds c -> args_ok ns ds f ->
    wp (Er o) (rec A f) c (post o (gives f) ns ds (fun ds' => res_ok ns ds' f)).
End Opts.

(** ** Tactics *)
Ltac upgrade Hi :=
  match type of Hi with incl ?ds ?ds' =>
    repeat match goal with
    | H : ShapeBase.G _ _ _ ds _ |- _ => apply (G_mono Hi) in H
    | H : ShapeBase.GL _ _ _ ds _ |- _ => apply (GL_mono Hi) in H
    | H : ShapeBase.GO _ _ _ ds _ |- _ => apply (GO_mono Hi) in H
    | H : ShapeBase.GLO _ _ _ ds _ |- _ => apply (GLO_mono Hi) in H
    | H : VO _ ds _ |- _ => apply (VO_mono Hi) in H
    end
  end.
Ltac chain :=
  match goal with
  | |- incl ?a ?a => apply incl_refl
  | H : incl ?x ?b |- incl ?a ?b => apply incl_tran with x; [clear H; chain | exact H]
  end.
Ltac weaken_st := first [eassumption | eapply St_weaken; eassumption].
(** role facts *)
Ltac role :=
  first
  [ reflexivity
  | match goal with |- text_in _ _ => first [assumption | solve [cbn; auto 10]] end
  | match goal with
    | H : ShapeBase.G _ ?f _ _ ?e |- ?f ?e = true => exact (G_role H)
    | H : ShapeBase.GL _ ?f _ _ ?l |- all ?f ?l => exact (GL_all H)
    | H : ShapeBase.GO _ ?f _ _ ?x |- opt ?f ?x => exact (GO_opt H)
    | H : ShapeBase.G _ ?f _ _ ?e |- ?g ?e = true => pose proof (G_role H); solve [eauto 3 with roles]
    end
  | assumption
  | congruence ].
Ltac okl1 :=
  match goal with
  | H : ShapeBase.G _ _ _ _ ?e |- ok _ _ _ ?e => exact (G_ok H)
  | H : ShapeBase.GL _ _ _ _ ?l |- Forall _ ?l => exact (GL_ok H)
  | H : ShapeBase.GO _ _ _ _ ?x |- Forall _ (opt_list ?x) => exact (GO_ok H)
  end.
Ltac okl :=
  repeat first
  [ okl1
  | apply Forall_nil
  | apply Forall_cons
  | apply Forall_app; split ].

Ltac clear_old c :=
  repeat match goal with H : St _ _ _ _ c |- _ => clear H end.
Ltac rec_step :=
  match goal with
  | REC : respects _ ?r, HS : St _ _ ?ns ?ds ?c |- wp _ (?r _ ?f) ?c _ =>
    let a := fresh "a" in let c' := fresh "c" in let ds' := fresh "ds" in
    let Hi := fresh "Hi" in let HS' := fresh "HS" in let HR := fresh "HR" in
    eapply wp_weaken;
    [ eapply (@REC _ f ns ds c);
      [ first [exact HS | exact (St_weaken HS)] | cbn [args_ok]; try exact I ]
    | cbn beta; intros a c' (ds' & Hi & HS' & HR); cbn [res_ok gives prod_role] in HR, HS'; clear HS; upgrade Hi; try clear c ]
  end.
Ltac frame_step :=
  match goal with
  | HS : St _ _ _ _ ?c |- wp _ ?m ?c _ =>
    let a := fresh "a" in let c' := fresh "c" in let HS' := fresh "HS" in
    apply (@wp_framed _ _ m _ _ _ c _ ltac:(solve [auto with framed]) HS);
    cbn beta; intros a c' HS'; clear HS; try clear c
  end.
Ltac go1 :=
  match goal with
  | |- wp _ (bind _ _) _ _ => apply wp_bind
  | |- wp _ (ret _) _ _ => apply wp_ret; cbn beta
  | |- wp _ curTok _ _ => eapply wp_curTok; [eassumption|intros ? ?]
  | |- wp _ (ask c_val) _ _ => eapply wp_val; [eassumption|intros ? ?]
  | |- wp _ (option_on _) _ _ => eapply wp_opt; [eassumption|]
  | |- wp _ (settokenValue _ _) ?c _ =>
    eapply wp_set; [eassumption| | |first [exact I|reflexivity|idtac]|let c' := fresh "c" in intros c' ?; clear_old c; try clear c]
  | |- wp _ (setToken _) ?c _ => eapply wp_set0; [eassumption| |first [exact I|reflexivity|idtac]|let c' := fresh "c" in intros c' ?; clear_old c; try clear c]
  | |- wp _ (match ?x with _ => _ end) _ _ =>
    lazymatch type of x with
    | expr => fail
    | list expr => fail
    | option (expr * bool) => fail
    | _ => first [is_var x; destruct x | destruct x eqn:?]
    end
  | |- wp _ (issue _) _ _ => apply wp_issue2; eapply St_Er; eassumption
  | |- wp _ (issue2 _ _) _ _ => apply wp_issue2; eapply St_Er; eassumption
  | |- wp _ (throw _) _ _ => apply wp_throw; eapply St_Er; eassumption
  | |- wp _ (unterminatedQuote _ _) _ _ => unfold unterminatedQuote
  | |- wp _ (unexpected_char _ _) _ _ => unfold unexpected_char
  | |- wp _ unexpectedToken _ _ => unfold unexpectedToken
  | |- wp _ (_ _) _ _ => rec_step
  | |- wp _ _ _ _ => frame_step
  end.
Ltac call L :=
  match goal with HS : St _ _ _ _ ?c |- wp _ _ ?c _ =>
    let a := fresh "a" in let c' := fresh "c" in let ds' := fresh "ds" in
    let Hi := fresh "Hi" in let HS' := fresh "HS" in let HR := fresh "HR" in
    eapply wp_weaken;
    [ eapply L; first [exact HS | exact (St_weaken HS) | idtac]
    | cbn beta; intros a c' (ds' & Hi & HS' & HR); cbn beta in HR; clear HS; upgrade Hi; try clear c ]
  end.
Ltac go := repeat (cbn beta iota; go1).
Ltac fin := eapply post_intro; [ |eassumption| ]; [chain| ]; cbn beta.

Lemma framed_tokenString : framed tokenString.
Proof. unfold tokenString. framed_tac. Qed.
Lemma framed_span s : framed (span s).
Proof. unfold span. framed_tac. Qed.
Lemma framed_assertToken t : framed (assertToken t).
Proof. unfold assertToken. framed_tac. Qed.
Lemma framed_toTokenStart : framed toTokenStart.
Proof. unfold toTokenStart. framed_tac. Qed.
Lemma framed_tokStart : framed tokStart.
Proof. unfold tokStart. framed_tac. Qed.
Lemma framed_getPos : framed getPos.
Proof. unfold getPos. framed_tac. Qed.
Lemma framed_isLetterM c : framed (isLetterM c).
Proof. unfold isLetterM. framed_tac. Qed.
Lemma framed_value_string : framed value_string.
Proof. unfold value_string. framed_tac. Qed.
Lemma framed_extractFlags s : framed (extractFlags s).
Proof. unfold extractFlags. framed_tac; auto with framed. Qed.
Lemma framed_wpos f : framed (modify (fun c => with_pos (f c) c)).
Proof. framed_tac. Qed.
Lemma framed_wtsp f : framed (modify (fun c => with_tsp (f c) c)).
Proof. framed_tac. Qed.
Lemma framed_wtsp' x : framed (modify (with_tsp x)).
Proof. framed_tac. Qed.
Lemma framed_wradix x : framed (modify (with_radix x)).
Proof. framed_tac. Qed.
Lemma framed_unexpected_char A s c : framed (@unexpected_char A s c).
Proof. unfold unexpected_char. framed_tac. Qed.
Lemma framed_unexpectedToken A : framed (@unexpectedToken A).
Proof. unfold unexpectedToken. framed_tac. Qed.
Lemma framed_cont a b : framed (modify (fun c => with_nls a (with_pos b c))).
Proof. apply framed_modify. intros c. eapply frame_trans; [apply frame_pos|apply frame_nls]. Qed.
Lemma framed_of_sum A (x : A + err) : framed (of_sum x).
Proof. destruct x; cbn; framed_tac. Qed.
Global Hint Resolve framed_tokenString framed_span framed_assertToken framed_toTokenStart framed_tokStart framed_getPos
  framed_isLetterM framed_value_string framed_extractFlags framed_wpos framed_wtsp framed_wtsp' framed_wradix framed_unexpected_char
  framed_unexpectedToken framed_cont framed_of_sum : framed.

Section Rec.
Variable o : opts.
Variable rec : forall A, fn A -> M A.
Hypothesis REC : respects o rec.
Notation Er := (Er o). Notation St := (St o). Notation post := (post o).
Notation G := (G o). Notation GL := (GL o). Notation GO := (GO o). Notation GLO := (GLO o).


End Rec.

(** opening and building nodes *)
Ltac open_forall := repeat match goal with
  | H : Forall _ (_ :: _) |- _ => apply Forall_cons_iff in H; destruct H
  | H : Forall _ (_ ++ _) |- _ => apply Forall_app in H; destruct H
  | H : Forall _ [] |- _ => clear H
  | H : _ /\ _ |- _ => destruct H
  end.
Ltac open_ok H :=
  let ns' := fresh "ns'" in let N := fresh "N" in let Gr := fresh "Gr" in let Al := fresh "Al" in let Ch := fresh "Ch" in
  inversion H as [? ? ns' N Gr Al _ Ch]; clear H; subst; cbn [naming] in N; cbn [grammar] in Gr; cbn [children opt_list] in Ch; cbn [allowed] in Al;
  try subst ns'; open_forall.
Ltac opn H := let H2 := fresh "R" in destruct H as [H H2]; open_ok H.
Lemma GL_of o f ns ds l : Forall (ok o ds ns) l -> all f l -> GL o f ns ds l.
Proof.
  intros H R. unfold all in R. rewrite forallb_forall in R. unfold GL. rewrite Forall_forall in *. intros x Hx. split; auto.
Qed.
Lemma GO_of o f ns ds x : Forall (ok o ds ns) (opt_list x) -> opt f x -> GO o f ns ds x.
Proof. destruct x; cbn; [|auto]. intros H R. inversion H. split; auto. Qed.
Ltac reG := repeat match goal with
  | H : ok ?o ?ds ?ns ?e, R : ?f ?e = true |- _ =>
    lazymatch goal with K : ShapeBase.G o f ns ds e |- _ => fail | _ => pose proof (conj H R : ShapeBase.G o f ns ds e) end
  | H : Forall (ok ?o ?ds ?ns) ?l, R : all ?f ?l |- _ =>
    lazymatch goal with K : ShapeBase.GL o f ns ds l |- _ => fail | _ =>
      assert (ShapeBase.GL o f ns ds l) by (apply GL_of; assumption) end
  | H : Forall (ok ?o ?ds ?ns) (opt_list ?x), R : opt ?f ?x |- _ =>
    lazymatch goal with K : ShapeBase.GO o f ns ds x |- _ => fail | _ =>
      assert (ShapeBase.GO o f ns ds x) by (apply GO_of; assumption) end
  end.
Ltac gr := cbn [grammar opt all forallb]; repeat match goal with |- _ /\ _ => split end; try exact I; try role.
Ltac build := eapply node; [cbn [naming]; try reflexivity | gr | cbn [allowed]; try exact I; try assumption | reflexivity | cbn [children opt_list]; okl; try assumption | reflexivity].

Section Rec2.
Variable o : opts.
Variable rec : forall A, fn A -> M A.
Hypothesis REC : respects o rec.
Notation Er := (Er o). Notation St := (St o). Notation post := (post o).
Notation G := (G o). Notation GL := (GL o). Notation GO := (GO o). Notation GLO := (GLO o).


Lemma mk_named q op ns ds x y : text_in op (operator_texts KNamedAccess) -> G is_expression ns ds x -> G is_expression ns ds y -> G is_named_access ns ds (EBin q KNamedAccess op x y).
Proof. intros. build. Qed.
Lemma var_node q ns ds x : is_variable_name x = true -> G is_expression ns ds x -> G is_expression ns ds (EUn q KVariable x).
Proof. intros. build. Qed.
Lemma access_var p q r s n ns ds ks : G is_expression ns ds (EAccess p (EQName q n) ks) ->
  G is_expression ns ds (EAccess r (EUn s KVariable (EQName q n)) ks).
Proof. intros H. opn H. reG. assert (G is_expression ns ds (EUn s KVariable (EQName q n))) by (apply var_node; auto). build. Qed.

Lemma convertNamedAccess_ok start n : forall e, (height e < n)%nat -> forall ns ds, G is_expression ns ds e ->
  forall x b, convertNamedAccessLHS e start = Some (x, b) -> G is_named_access ns ds x.
Proof.
  induction n as [|n IH]; intros e Hn ns ds He x b H; [lia|].
  destruct e; cbn [convertNamedAccessLHS] in H; try discriminate.
  destruct k; try discriminate.
  assert (H1: (height e1 < n)%nat).
  { pose proof (@child_height (EBin p KNamedAccess op e1 e2) e1 (or_introl eq_refl)). lia. }
  pose proof He as He0. opn He. reG.
  assert (Dflt: G is_named_access ns ds (EBin p KNamedAccess op e1 e2)) by (split; [apply He0|reflexivity]).
  destruct e1; try (injection H as <- <-; exact Dflt).
  - injection H as <- <-. apply mk_named; [first [assumption | left; reflexivity]| |assumption]. destruct e1; try assumption. eapply access_var. eassumption.
  - destruct k; try (injection H as <- <-; exact Dflt).
    destruct (convertNamedAccessLHS (EBin p0 KNamedAccess op0 e1_1 e1_2) start) as [[y b']|] eqn:Ey; [|discriminate].
    injection H as <- <-. apply mk_named; [first [assumption | left; reflexivity]| |assumption].
    eapply G_sub; [|eapply IH; eauto]. auto with roles.
  - destruct (convertNamedAccessLHS e1 start) as [[y b']|] eqn:Ey; [|discriminate].
    injection H as <- <-. apply mk_named; [first [assumption | left; reflexivity]| |assumption].
    assert (Hh: (height e1 < n)%nat).
    { pose proof (@child_height (ECallMethod p0 rval e1 args lambda) e1 (or_introl eq_refl)). lia. }
    match goal with K : G is_expression ns ds (ECallMethod _ _ _ _ _) |- _ => opn K end. reG.
    assert (G is_named_access ns ds y) by (eapply IH; eauto; eapply G_sub; [|eassumption]; auto with roles).
    build.
  - injection H as <- <-. apply mk_named; [first [assumption | left; reflexivity]| |assumption]. apply var_node; auto.
Qed.


Lemma text_var q q' q'' s ns ds : G is_text ns ds (EUn q KText (EUn q' KVariable (EQName q'' s))).
Proof.
  assert (G is_expression ns ds (EUn q' KVariable (EQName q'' s))) by (apply var_node; [reflexivity|build]). build.
Qed.
Lemma interpolate_ok ns ds c start : St false ns ds c ->
  wp Er (interpolate rec start) c (post true ns ds (fun ds' => G is_text ns ds')).
Proof.
  intros HS. unfold interpolate. go; try exact I.
  - eapply wp_weaken with (Q := fun e' c' => St true ns ds1 c' /\ G is_expression ns ds1 e').
    + destruct a1; try (apply wp_ret; split; assumption).
      * destruct a1; try (apply wp_ret; split; assumption). apply wp_ret. split; [assumption|]. eapply access_var. eassumption.
      * destruct a1; try (apply wp_ret; split; assumption). destruct k; try (apply wp_ret; split; assumption).
        destruct convertNamedAccessLHS as [[f' []]|] eqn:Ef.
        -- apply wp_ret. split; [assumption|]. opn HR0. reG.
           assert (G is_named_access ns ds1 f').
           { eapply convertNamedAccess_ok; [| |exact Ef]; [apply Nat.lt_succ_diag_r|eapply G_sub; [|eassumption]; auto with roles]. }
           build.
        -- apply wp_ret. split; assumption.
        -- apply wp_throw. eapply St_Er; eassumption.
      * apply wp_ret. split; [assumption|]. now apply var_node.
    + cbn beta. intros e' c' [HS' He']. go. fin. build.
  - fin. apply text_var.
  - fin. apply text_var.
Qed.

Lemma str_node ns ds q s : G is_segment ns ds (EString q s).
Proof. build. Qed.
Lemma segs_tail ns ds q s l : GL is_segment ns ds l -> GL is_segment ns ds (match s with [] => l | _ => l ++ [EString q s] end).
Proof. intros H. destruct s; [exact H|]. apply GL_app; [exact H|]. apply GL_cons; [apply str_node|apply GL_nil]. Qed.
Lemma text_segment e : is_text e = true -> is_segment e = true. Proof. destruct e; cbn; congruence. Qed.
Hint Resolve text_segment : roles.
Lemma handleInterpolation_ok ns ds c start segs buf : St false ns ds c -> GL is_segment ns ds segs ->
  wp Er (handleInterpolation rec start segs buf) c (post true ns ds (fun ds' => GL is_segment ns ds')).
Proof.
  intros HS Hs. unfold handleInterpolation. do 2 (apply wp_bind; frame_step). apply wp_bind.
  eapply wp_weaken; [apply interpolate_ok; eassumption|]. intros e c' (ds' & Hi & HS' & HR). upgrade Hi. cbn beta in HR.
  go. fin. apply GL_app; [now apply segs_tail|].
  apply GL_cons; [eapply G_sub; [|eassumption]; auto with roles|apply GL_nil].
Qed.
Lemma delim_body_ok ns ds c delim dstart h buf ec start segs : St false ns ds c -> GLO is_segment ns ds segs ->
  wp Er (delim_body rec delim dstart h buf ec start segs) c (post true ns ds (fun ds' => GLO is_segment ns ds')).
Proof.
  intros HS Hs. unfold delim_body. cbv zeta. go; try exact I; try assumption; try (fin; assumption).
  call handleInterpolation_ok; [exact Hs|]. go; [exact HR|fin; exact HR0].
Qed.
Lemma consumeDelimitedString_ok ns ds c delim dstart segs h : St false ns ds c -> GLO is_segment ns ds segs ->
  wp Er (consumeDelimitedString rec delim dstart segs h) c (post true ns ds (fun ds' => GLO is_segment ns ds')).
Proof. intros HS Hs. unfold consumeDelimitedString. go; [exact Hs|fin; exact HR]. Qed.
Lemma consumeSingle_ok ns ds c : St false ns ds c ->
  wp Er (consumeSingleQuotedString rec) c (post true ns ds (fun _ _ => True)).
Proof. intros HS. unfold consumeSingleQuotedString. apply wp_bind. frame_step. apply wp_bind. call consumeDelimitedString_ok; [exact I|]. go. fin. exact I. Qed.
Lemma consumeRegexp_ok ns ds c : St false ns ds c ->
  wp Er (consumeRegexp rec) c (post true ns ds (fun _ _ => True)).
Proof.
  intros HS. unfold consumeRegexp. apply wp_bind. frame_step. apply wp_bind. call consumeDelimitedString_ok; [exact I|]. go.
  - apply wp_modify. destruct HS as (S1 & S2 & S3 & S4 & S5 & S6). go. exists ds0. split; [chain|]. split; [|exact I]. unfold ShapeBase.St. cbn. repeat split; auto; try (apply S5; reflexivity).
  - fin. exact I.
Qed.
Lemma consumeDouble_ok ns ds c : St false ns ds c ->
  wp Er (consumeDoubleQuotedString rec) c (post true ns ds (fun _ _ => True)).
Proof.
  intros HS. unfold consumeDoubleQuotedString. go. call consumeDelimitedString_ok; [destruct (o_factory o); [apply GL_nil|exact I]|].
  go; try (fin; exact I).
  match goal with |- wp _ (match ?l with [] => _ | _ => _ end) _ _ => assert (HL : GL is_segment ns ds0 l); [|generalize dependent l; intros segs HL] end.
  { destruct a0 as [[|x xs]|]; try (apply GL_cons; [apply str_node|apply GL_nil]). now apply segs_tail. }
  assert (K : forall f, wp Er (settokenValue TConcatenatedString (VExpr (EConcat f segs))) c0 (post true ns ds (fun _ _ => True))).
  { intros f. go; [exact I| |fin; exact I]. intros ns2. eapply node with (ns' := ns); [exact I|cbn; role|exact I|reflexivity|cbn [children]; okl|reflexivity]. }
  destruct segs as [|s0 l']; [go|].
  destruct s0; try apply K. destruct l'; [go; fin; exact I|apply K].
Qed.
Lemma apply_body_ok ns ds c e i fl bld ch start segs : St false ns ds c -> GLO is_segment ns ds segs ->
  wp Er (apply_body rec e i fl bld ch start segs) c (post false ns ds (fun ds' r => GLO is_segment ns ds' (snd r))).
Proof.
  intros HS Hs. unfold apply_body. cbv zeta. go; try assumption; try (fin; assumption).
  all: try (call handleInterpolation_ok; [exact Hs|]; go; [assumption|fin; assumption]).
Qed.
Lemma applyEscapes_ok ns ds c e i fl segs : St false ns ds c -> GLO is_segment ns ds segs ->
  wp Er (applyEscapes rec e i fl segs) c (post false ns ds (fun ds' r => GLO is_segment ns ds' (snd r))).
Proof. intros HS Hs. unfold applyEscapes. go; try assumption. fin. assumption. Qed.
Lemma heredoc_lit ds q sy q' s : VO o ds (VExpr (EHeredoc q sy (EString q' s))).
Proof. intros ns. assert (G is_expression ns ds (EString q' s)) by build. build. Qed.
Lemma heredoc_concat ns' ds q sy q' l : GL is_segment ns' ds l -> VO o ds (VExpr (EHeredoc q sy (EConcat q' l))).
Proof.
  intros H ns.
  assert (G is_expression ns ds (EConcat q' l)).
  { eapply node with (ns' := ns'); [exact I|cbn; role|exact I|reflexivity|cbn [children]; okl|reflexivity]. }
  build.
Qed.
Lemma heredoc_ok ns ds c : St false ns ds c ->
  wp Er (consumeHeredocString rec) c (post true ns ds (fun _ _ => True)).
Proof.
  intros HS. unfold consumeHeredocString. cbv zeta.
  go; try (fin; exact I); try exact I.
  - call applyEscapes_ok; [destruct (_ && _); [apply GL_nil|exact I]|].
    destruct a1 as [hd segs]. cbn [snd] in HR.
    assert (L : forall m, m = (modify (fun c : ctx => with_nls (z7 + 1) (with_pos z c));;
           f <- option_on o_factory;;
           (if f : bool
            then settokenValue THeredoc (VExpr (EHeredoc {| p_off := a - 2; p_len := z6 - (a - 2) |} (h_syntax h) (EString {| p_off := z4; p_len := z6 - z4 |} hd)))
            else settokenValue TString (VStr hd))) -> wp Er m c0 (post true ns ds (fun _ _ => True))).
    { intros m ->. go; try exact I; try (fin; exact I). apply heredoc_lit. }
    destruct segs as [[|s0 ss]|]; try (apply L; reflexivity). clear L.
    go; [exact I| |fin; exact I]. apply heredoc_concat with (ns' := ns). now apply segs_tail.
  - apply heredoc_lit.
Qed.

Lemma epp_step_ok ns ds st c : o_epp o = true -> St false ns ds c ->
  wp Er (epp_step st) c (fun r c' => match r with inl _ => St false ns ds c' | inr _ => St true ns ds c' end).
Proof.
  intros HE HS. unfold epp_step. cbv zeta.
  go; try exact I; try exact HE; try assumption; try (eapply St_weaken; eassumption).
Qed.
Lemma consumeEPP_ok ns ds c : o_epp o = true -> St false ns ds c ->
  wp Er (consumeEPP rec) c (post true ns ds (fun _ _ => True)).
Proof.
  intros HE HS. unfold consumeEPP. apply wp_bind.
  eapply wp_weaken with (Q := fun _ c' => St true ns ds c').
  - eapply wp_while with (I := fun _ c' => St false ns ds c'); [exact HS|]. intros st c' HS'. now apply epp_step_ok.
  - intros b c' HS'. clear HS c. go; try exact I; fin; exact I.
Qed.
Lemma kw_gate w t : kw_lookup w = Some t -> t <> TPlan -> gate o t.
Proof.
  unfold kw_lookup. assert (H : Forall (fun kt => snd kt <> TPlan -> gate o (snd kt)) keywords).
  { unfold keywords. repeat constructor; cbn; try exact I; congruence. }
  induction H as [|[k t'] l Hh Hl IH]; cbn [kw_find]; [discriminate|].
  destruct (str_eqb w (lit k)); [|exact IH]. injection 1 as <-. exact Hh.
Qed.
Ltac lex := go; try exact I; try (fin; exact I).
Lemma kw_paired w t : kw_lookup w = Some t -> paired t (VStr w).
Proof.
  unfold kw_lookup. assert (H : Forall (fun kt => paired (snd kt) (VStr (lit (fst kt)))) keywords).
  { unfold keywords. repeat constructor. }
  induction H as [|[k t'] l Hh Hl IH]; cbn [kw_find]; [discriminate|].
  destruct (str_eqb w (lit k)) eqn:E; [|exact IH]. apply str_eqb_eq in E. subst w. injection 1 as <-. exact Hh.
Qed.
Lemma qname_ok ns ds c start t : gate o t -> (forall v, paired t v) -> St false ns ds c ->
  wp Er (consumeQualifiedName start t) c (post true ns ds (fun _ _ => True)).
Proof.
  intros Hg Hp HS. unfold consumeQualifiedName. go; try exact I; try assumption; try (fin; exact I).
  all: try (eapply kw_gate; [eassumption|discriminate]).
  all: try apply Hp.
  all: try (apply kw_paired; assumption).
  all: destruct (o_tasks o) eqn:Et; first [exact Et|exact Hg|exact I|apply Hp].
Qed.
Lemma float_ok ns ds c start d : St false ns ds c -> wp Er (consumeFloat start d) c (post true ns ds (fun _ _ => True)).
Proof. intros HS. unfold consumeFloat. lex. Qed.
Lemma backtick_ok ns ds c : St false ns ds c -> wp Er consumeBacktickedString c (post true ns ds (fun _ _ => True)).
Proof. intros HS. unfold consumeBacktickedString. lex. Qed.
Lemma op_token_ok ns ds c alts dflt : Forall (fun a => gate o (snd a) /\ paired (snd a) VNil) alts -> St false ns ds c ->
  (forall c', St false ns ds c' -> wp Er dflt c' (post true ns ds (fun _ _ => True))) ->
  wp Er (op_token alts dflt) c (post true ns ds (fun _ _ => True)).
Proof.
  intros Ha HS HD. unfold op_token. go. induction Ha as [|[x t] l Hg Hl IH]; cbn [op_choice]; [auto|].
  destruct (z =? x); [|exact IH]. go; [exact (proj1 Hg)|exact (proj2 Hg)|fin; exact I].
Qed.
Ltac ops := apply op_token_ok; [repeat constructor|assumption|].
Lemma number_ok ns ds c start : St false ns ds c -> wp Er (lex_number start) c (post true ns ds (fun _ _ => True)).
Proof. intros HS. unfold lex_number. go; try exact I; try (fin; exact I). now apply float_ok. Qed.
Lemma zero_ok ns ds c start : St false ns ds c -> wp Er (lex_zero start) c (post true ns ds (fun _ _ => True)).
Proof. intros HS. unfold lex_zero. go; try exact I; try (fin; exact I). now apply float_ok. Qed.
Lemma variable_ok ns ds c start : St false ns ds c -> wp Er (lex_variable start) c (post true ns ds (fun _ _ => True)).
Proof. intros HS. unfold lex_variable. go; try exact I; try (fin; exact I); apply qname_ok; try exact I; try (intros; exact I); try assumption. Qed.
Lemma paren_ok ns ds c start : St false ns ds c -> wp Er (lex_paren start) c (post true ns ds (fun _ _ => True)).
Proof. intros HS. unfold lex_paren. go; try exact I; try (fin; exact I). all: destruct (_ =? _); exact I. Qed.
Lemma colon_ok ns ds c start : St false ns ds c -> wp Er (lex_colon start) c (post true ns ds (fun _ _ => True)).
Proof. intros HS. unfold lex_colon. go; try exact I; try (fin; exact I); apply qname_ok; try exact I; try (intros; exact I); try assumption; eapply St_weaken; eassumption. Qed.
Lemma minus_ok ns ds c : St false ns ds c -> wp Er (lex_minus rec) c (post true ns ds (fun _ _ => True)).
Proof. 
  intros HS. unfold lex_minus. go; try exact I; try (fin; exact I); apply consumeEPP_ok; try assumption.
  all: match goal with H : _ && o_epp o = true |- _ => apply andb_prop in H; apply H end.
Qed.
Lemma percent_ok ns ds c : St false ns ds c -> wp Er (lex_percent rec) c (post true ns ds (fun _ _ => True)).
Proof. 
  intros HS. unfold lex_percent. go; try exact I; try (fin; exact I); apply consumeEPP_ok; try assumption; eapply St_weaken; eassumption.
Qed.
Lemma less_ok ns ds c : St false ns ds c -> wp Er (lex_less rec) c (post true ns ds (fun _ _ => True)).
Proof. 
  intros HS. unfold lex_less. go; try exact I; try (fin; exact I); try match goal with H : _ && o_epp o = true |- _ => apply andb_prop in H; apply H end.
  all: ops; intros; go; try exact I; fin; exact I.
Qed.
Lemma pipe_ok ns ds c : St false ns ds c -> wp Er lex_pipe c (post true ns ds (fun _ _ => True)).
Proof. 
  intros HS. unfold lex_pipe. go; try exact I; try (fin; exact I).
  all: ops; intros; go; try exact I; fin; exact I.
Qed.
Lemma at_ok ns ds c : St false ns ds c -> wp Er (lex_at rec) c (post true ns ds (fun _ _ => True)).
Proof. intros HS. unfold lex_at. go; try exact I; try (fin; exact I). now apply heredoc_ok. Qed.
Lemma lex_token_ok ns ds c a b ch : St false ns ds c -> wp Er (lex_token rec a b ch) c (post true ns ds (fun _ _ => True)).
Proof.
  intros HS. unfold lex_token.
  repeat match goal with
  | |- wp _ (if ?b then _ else _) _ _ =>
    destruct b;
    [ first [ now apply number_ok | now apply zero_ok | now apply variable_ok | now apply paren_ok | now apply colon_ok | now apply minus_ok
            | now apply percent_ok | now apply less_ok | now apply pipe_ok | now apply at_ok | now apply consumeDouble_ok | now apply consumeSingle_ok
            | solve [apply qname_ok; [exact I|intros; exact I|assumption]]
            | ops; intros; go; try exact I; fin; exact I
            | go; try exact I; try (destruct (_ : bool); exact I); fin; exact I
            | idtac ] | ]
  end.
  - go; [destruct (tok_eqb _ _); exact I..|fin; exact I].
  - go; [destruct (_ || _); exact I..|fin; exact I].
  - apply wp_bind. eapply wp_curTok; [eassumption|]. intros t Ht. cbn beta. destruct (isRegexpAcceptable t).
    + apply wp_bind. call consumeRegexp_ok. go; try exact I; fin; exact I.
    + go; [exact I|fin; exact I].
  - go. now apply backtick_ok.
  - go.
Qed.
Lemma nextToken_ok ns ds c : St false ns ds c -> wp Er (nextToken_body rec) c (post true ns ds (fun _ _ => True)).
Proof.
  intros HS. unfold nextToken_body. do 2 (apply wp_bind; frame_step). destruct a0. apply wp_bind. frame_step. now apply lex_token_ok.
Qed.
End Rec2.
