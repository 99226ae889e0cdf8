(** * ShapeParse: the invariant of ShapeBase for the parser *)
From Verif Require Import Base Float Tokens Ast Ctx Locator Lexer Parser Wp LexFrame SpecVisit SpecValidate SpecShape ShapeBase ShapeLex.

(** ** Pure transformations *)
Section Pure.
Variable o : opts.
Notation G := (G o). Notation GL := (GL o). Notation GO := (GO o). Notation GLO := (GLO o).

Lemma ok_set_pos ds ns q e : ok o ds ns e -> ok o ds ns (set_pos q e).
Proof.
  intros H. inversion H as [? ? ns' N Gr Al Li Ch]; subst.
  apply ok_intro with (ns' := ns'); destruct e; try assumption.
Qed.
Lemma G_set_pos ns ds q e : G is_expression ns ds e -> G is_expression ns ds (set_pos q e).
Proof. intros [H1 H2]. split; [now apply ok_set_pos|destruct e; assumption]. Qed.

Lemma set_rval_ok b f ns ds e : G f ns ds e -> (forall p r x l m, f (ECallNamed p r x l m) = true -> f (ECallNamed p b x l m) = true) -> G f ns ds (set_rval b e).
Proof.
  intros H Hf. destruct e; try exact H. pose proof H as [_ R]. opn H. reG. cbn [set_rval].
  split; [|eapply Hf, R].
  apply ok_intro with (ns' := ns); [reflexivity|gr|exact I|discriminate|cbn [children opt_list]; repeat first [apply Forall_cons|apply Forall_app; split]; try assumption].
Qed.
Lemma stmt_rval b ns ds e : G is_statement ns ds e -> G is_statement ns ds (set_rval b e).
Proof. intros H. apply set_rval_ok; [exact H|reflexivity]. Qed.
Lemma transform_ok ns ds es : forall n memo, (List.length es <= n)%nat -> G is_statement ns ds memo -> GL is_statement ns ds es -> GL is_statement ns ds (fst (transform_from memo es)).
Proof.
  intros n; revert es. induction n as [|n IH]; intros es memo Hn Hm Hes.
  - destruct es; [|cbn in Hn; lia]. cbn. apply GL_cons; [now apply stmt_rval|apply GL_nil].
  - destruct es as [|e es]; [cbn; apply GL_cons; [now apply stmt_rval|apply GL_nil]|].
    cbn [transform_from]. inversion Hes as [|? ? He Hes']; subst. cbn in Hn.
    assert (D : GL is_statement ns ds (fst (let (r, b) := transform_from e es in (set_rval false memo :: r, b)))).
    { specialize (IH es e ltac:(lia) He Hes'). destruct (transform_from e es). cbn in *. apply GL_cons; [now apply stmt_rval|exact IH]. }
    destruct memo; try exact D.
    destruct (isStatementCall name); [|exact D].
    assert (A : GL is_expression ns ds (match e with ECommaList _ l => l | _ => [set_rval true e] end)).
    { assert (X : forall b, is_comma_list b = false -> G is_statement ns ds b -> GL is_expression ns ds [set_rval true b]).
      { intros b Hb Hg. apply GL_cons; [|apply GL_nil]. apply set_rval_ok; [|reflexivity].
        destruct Hg as [Ho Hr]. split; [exact Ho|]. unfold is_statement in Hr. rewrite Hb, orb_false_r in Hr. exact Hr. }
      destruct e; try (apply X; [reflexivity|exact He]). opn He. reG. assumption. }
    match goal with |- context [ECallNamed ?p false ?f ?a None] => assert (C : G is_statement ns ds (ECallNamed p false f a None)) end.
    { assert (G is_expression ns ds (EQName p name)) by (split; [apply Hm|reflexivity]). build. }
    destruct es as [|m es]; [apply GL_cons; [exact C|apply GL_nil]|].
    inversion Hes'; subst. specialize (IH es m ltac:(cbn in Hn; lia)). destruct (transform_from m es). cbn in *.
    apply GL_cons; [exact C|]. auto.
Qed.

Lemma transform_last es : forall n memo r, (List.length es <= n)%nat -> transform_from memo es = (r, false) ->
  exists before call, r = before ++ [call] /\ is_statement_call call = true.
Proof.
  intros n; revert es. induction n as [|n IH]; intros es memo r Hn E.
  - destruct es; [|cbn in Hn; lia]. discriminate.
  - destruct es as [|e es]; [discriminate|]. cbn [transform_from] in E. cbn in Hn.
    assert (D : forall x r', (let (r0, b) := transform_from e es in (x :: r0, b)) = (r', false) -> exists before call, r' = before ++ [call] /\ is_statement_call call = true).
    { intros x r' E'. destruct (transform_from e es) as [r0 b] eqn:E0. injection E' as <- ->. destruct (IH es e r0 ltac:(lia) E0) as (bf & cl & -> & Hc). exists (x :: bf), cl. auto. }
    destruct memo; try (eapply D; exact E). destruct (isStatementCall name) eqn:Es; [|eapply D; exact E].
    destruct es as [|m es].
    + injection E as <-. eexists [], _. split; [reflexivity|]. cbn [is_statement_call]. exact Es.
    + destruct (transform_from m es) as [r0 b] eqn:E0. injection E as <- ->. destruct (IH es m r0 ltac:(cbn in Hn; lia) E0) as (bf & cl & -> & Hc). eexists (_ :: bf), cl. split; [reflexivity|exact Hc].
Qed.
Lemma check_commas_none es : forall c c', check_commas es c = Ok tt c' -> existsb is_comma_list es = false.
Proof.
  induction es as [|e es IH]; intros c c' E; [reflexivity|]. cbn [check_commas] in E.
  destruct e; try (cbn [existsb is_comma_list orb]; eapply IH; exact E). exfalso.
  destruct elements as [|f l]; [discriminate|]. unfold bind, ask, of_sum in E. cbv zeta in E.
  destruct (lineForOffset _ _); cbn in E; [|discriminate]. destruct (posOnLine _ _); cbn in E; discriminate.
Qed.

Lemma framed_check_commas es : framed (check_commas es).
Proof.
  induction es as [|e es IH]; cbn [check_commas]; [framed_tac|]. destruct e; try exact IH.
  destruct elements; framed_tac; try apply framed_of_sum.
Qed.

Lemma hash_node ns ds p es : GL is_pair ns ds es -> G is_hash ns ds (EHash p es).
Proof. intros H. build. Qed.
Lemma hash_of ns ds es : GL is_pair ns ds es -> G is_expression ns ds (newHashWithoutBraces es).
Proof. intros H. unfold newHashWithoutBraces. eapply G_sub; [apply hash_expr|]. destruct es as [|f l]; now apply hash_node. Qed.
Definition arg e := is_expression e || is_pair e.
Lemma process_ok ns ds es : forall col, GL is_pair ns ds col -> GL arg ns ds es -> GL is_expression ns ds (processHashEntries col es).
Proof.
  induction es as [|e es IH]; intros col Hc He.
  - cbn. destruct col; [apply GL_nil|]. apply GL_cons; [now apply hash_of|apply GL_nil].
  - inversion He as [|? ? He1 He2]; subst. cbn [processHashEntries]. destruct (isKeyedEntry e) eqn:Ek.
    + apply IH; [|exact He2]. apply GL_app; [exact Hc|]. apply GL_cons; [|apply GL_nil]. split; [apply He1|]. destruct e; try discriminate. reflexivity.
    + apply GL_app.
      * destruct col; [apply GL_nil|]. apply GL_cons; [now apply hash_of|apply GL_nil].
      * apply GL_cons; [|now apply IH; [apply GL_nil|]]. split; [apply He1|]. destruct He1 as [_ R]. unfold arg in R.
        destruct (is_expression e); [reflexivity|]. cbn in R. destruct e; discriminate.
Qed.
Lemma join_ok ns ds es : GL arg ns ds es -> GL is_expression ns ds (joinHashEntries es).
Proof.
  intros H. unfold joinHashEntries. destruct existsb eqn:E; [apply process_ok; [apply GL_nil|exact H]|].
  unfold ShapeBase.GL in *. rewrite Forall_forall in *. intros x Hx. destruct (H x Hx) as [H1 H2]. split; [exact H1|].
  assert (isKeyedEntry x = false).
  { destruct (isKeyedEntry x) eqn:K; [|reflexivity]. rewrite <- E. symmetry. apply existsb_exists. eauto. }
  unfold arg in H2. destruct (is_expression x); [reflexivity|]. destruct x; discriminate.
Qed.

Lemma lhs_call_ok ne : forall ns ds args l p, G is_named_access ns ds ne -> GL is_expression ns ds args -> GO is_lambda ns ds l ->
  G is_expression ns ds (convertLhsToCall ne args l p).
Proof.
  induction ne as [e IH] using expr_children_ind. intros ns ds args l p He Ha Hl.
  destruct e; try (destruct He; discriminate). destruct k; try (destruct He; discriminate).
  opn He. reG. cbn [convertLhsToCall].
  match goal with |- G _ _ _ (ECallMethod _ _ (EBin _ _ _ ?l' _) _ _) => assert (L : G is_expression ns ds l') end.
  { destruct e1; try assumption. destruct k; try assumption. apply IH; [left; reflexivity| |apply GL_nil|exact I].
    split; [assumption|reflexivity]. }
  match goal with |- G _ _ _ (ECallMethod _ _ ?f _ _) => assert (G is_named_access ns ds f) by build end.
  build.
Qed.

Lemma deferred_new_ok ns ds p args : GL is_expression ns ds args -> G is_expression ns ds (deferredNew p args).
Proof.
  intros H. unfold deferredNew. cbv zeta.
  assert (G is_expression ns ds (EQRef (mkpos (p_off p) 0) (lit "Deferred"))) by build.
  assert (G is_expression ns ds (EQName (mkpos (p_off p) 0) (lit "new"))) by build.
  match goal with |- G _ _ _ (ECallMethod _ _ ?f _ _) => assert (G is_named_access ns ds f) by build end.
  build.
Qed.
Lemma deferred_pair e : is_pair (convertToDeferred e) = is_pair e.
Proof. destruct e; cbn; try congruence; try (destruct k; cbn; congruence). match goal with |- context [match ?f with _ => _ end] => destruct f end; cbn; congruence. Qed.
Lemma deferred_param e : is_param (convertToDeferred e) = is_param e.
Proof. destruct e; cbn; try congruence; try (destruct k; cbn; congruence). match goal with |- context [match ?f with _ => _ end] => destruct f end; cbn; congruence. Qed.
Lemma existsb_map A B (f : A -> B) g l : existsb g (map f l) = existsb (fun x => g (f x)) l.
Proof. induction l; cbn; congruence. Qed.
Lemma deferred_params e : is_parameters (convertToDeferred e) = is_parameters e.
Proof.
  destruct e; cbn; try congruence; try (destruct k; cbn; congruence).
  - match goal with |- context [match ?f with _ => _ end] => destruct f end; cbn; congruence.
  - destruct elements; cbn; [reflexivity|]. apply deferred_param.
Qed.
Lemma deferred_role e : is_expression e = true -> is_expression (convertToDeferred e) = true.
Proof.
  destruct e; try (cbn; congruence); try (destruct k; cbn; congruence).
  - cbn. match goal with |- context [match ?f with _ => _ end] => destruct f end; cbn; try congruence.
  - destruct elements as [|x l]; [reflexivity|]. cbn [convertToDeferred map]. unfold is_expression, is_parameters. now rewrite deferred_param.
Qed.
Lemma list_expr p l : all is_expression l -> is_expression (EList p l) = true.
Proof. destruct l as [|x l]; [reflexivity|]. cbn. intros H. apply andb_prop in H as [H _]. destruct x; cbn in *; congruence. Qed.
Lemma list_node ns ds p l : GL is_expression ns ds l -> G is_expression ns ds (EList p l).
Proof.
  intros H. eapply node; [cbn [naming]; reflexivity|left; role| |reflexivity|cbn [children]; okl|apply list_expr; role].
  cbn [allowed]. intros E. apply existsb_exists in E as (x & Hx & Hp). unfold ShapeBase.GL in H. rewrite Forall_forall in H.
  destruct (H x Hx) as [_ R]. destruct x; discriminate.
Qed.
Lemma deferred_ok e : forall ns ds, ok o ds ns e -> ok o ds ns (convertToDeferred e).
Proof.
  induction e as [e IH] using expr_children_ind. intros ns ds H.
  assert (ML : forall l f, (forall x, In x l -> In x (children e)) -> (forall x, f x = true -> f (convertToDeferred x) = true) ->
    GL f ns ds l -> GL f ns ds (map convertToDeferred l)).
  { intros l f Hin Hf Hl. unfold ShapeBase.GL in *. rewrite Forall_forall in *. intros x Hx. apply in_map_iff in Hx as (y & <- & Hy).
    destruct (Hl y Hy). split; auto. }
  destruct e; try exact H.
  - destruct k; try exact H. cbn [convertToDeferred]. apply deferred_new_ok. apply GL_cons; [build|apply GL_nil].
  - pose proof H as H0. open_ok H. reG. cbn [convertToDeferred].
    assert (GL is_expression ns ds (map convertToDeferred args)).
    { apply ML; [|apply deferred_role|assumption]. intros x Hx. cbn [children]. right. apply in_or_app. now left. }
    destruct e; try exact H0; apply deferred_new_ok; apply GL_cons; try (apply GL_cons; [|apply GL_nil]); try apply list_node; try solve [build]; try assumption.
    apply GL_cons; assumption.
  - open_ok H. reG. cbn [convertToDeferred].
    assert (G is_expression ns ds (convertToDeferred e1)) by (split; [apply IH; [left; reflexivity|assumption]|now apply deferred_role]).
    assert (K2 : ok o ds ns (convertToDeferred e2)) by (apply IH; [right; left; reflexivity|assumption]).
    apply ok_intro with (ns' := ns); [reflexivity| |exact I|discriminate|cbn [children]; okl; exact K2].
    split; [role|]. rewrite deferred_params.
    match goal with K : _ \/ _ |- _ => destruct K as [K|K]; [left; now apply deferred_role|now right] end.
  - open_ok H. reG. cbn [convertToDeferred].
    assert (GL is_pair ns ds (map convertToDeferred entries)).
    { apply ML; [auto| |assumption]. intros x. rewrite deferred_pair. auto. }
    eapply G_ok with (f := is_expression). build.
  - open_ok H. cbn [convertToDeferred]. 
    assert (Fo : Forall (ok o ds ns) (map convertToDeferred elements)).
    { apply Forall_forall. intros x Hx. apply in_map_iff in Hx as (y & <- & Hy). apply IH; [exact Hy|].
      rewrite Forall_forall in Ch. auto. }
    apply ok_intro with (ns' := ns); [reflexivity| | |discriminate|exact Fo].
    + cbn [grammar]. destruct Gr as [Gr|Gr]; [left|right]; unfold all in *; rewrite forallb_forall in *; intros x Hx;
        apply in_map_iff in Hx as (y & <- & Hy); [apply deferred_role; auto|rewrite deferred_param; auto].
    + cbn [allowed]. rewrite existsb_map. intros E. apply Al. rewrite <- E. clear. induction elements as [|x l IH]; [reflexivity|].
      cbn. rewrite deferred_param. congruence.
Qed.
End Pure.

Global Hint Resolve framed_check_commas : framed.

Section Rec.
Variable o : opts.
Variable rec : forall A, fn A -> M A.
Hypothesis REC : respects o rec.
Notation Er := (Er o). Notation St := (St o). Notation post := (post o).
Notation G := (G o). Notation GL := (GL o). Notation GO := (GO o). Notation GLO := (GLO o).
Ltac clear_St := repeat match goal with H : ShapeBase.St _ _ _ _ _ |- _ => clear H end.
Ltac sub_step := fail.
Ltac g1 := first [sub_step | go1].
Ltac g := repeat (cbn beta iota; g1); try exact I.
(* closing a list or a node *)
Ltac lst := repeat first [assumption | apply GL_nil | apply GL_app | apply GL_cons | eapply G_sub; [|eassumption]; solve [auto with roles]].
Ltac done := first [exact I | assumption | solve [fin; first [exact I|assumption]] | idtac].
Ltac add :=
  eapply wp_add; [eassumption| eexists; split; [cbn [naming]; try reflexivity|split; [gr|split; [cbn [allowed]; try exact I; try assumption|cbn [children opt_list]; okl; try assumption]]]
  | reflexivity | reflexivity |
    let ds' := fresh "ds" in let c' := fresh "c" in intros ds' c' ? ? ?; fin; try assumption ].

Lemma transformCalls_ok0 ns ds c es : St true ns ds c -> GL is_statement ns ds es ->
  wp Er (transformCalls es) c (post true ns ds (fun ds' => GL is_statement ns ds')).
Proof.
  intros HS H. unfold transformCalls. destruct es as [|m es]; [g; fin; apply GL_nil|].
  inversion H as [|? ? H1 H2]; subst. pose proof (transform_ok (Nat.le_refl _) H1 H2) as T.
  destruct (transform_from m es) as [r b]. cbn [fst] in T. g; fin; assumption.
Qed.
Lemma no_commas l : forallb is_expression l = true -> commas_allowed l.
Proof.
  intros H K. exfalso. apply existsb_exists in K as (x & Hx & K). rewrite forallb_forall in H. specialize (H x Hx). destruct x; try discriminate K. discriminate H.
Qed.
Lemma GL_no_commas ns ds l : GL is_expression ns ds l -> commas_allowed l.
Proof.
  intros H. apply no_commas. apply forallb_forall. intros x Hx. unfold ShapeBase.GL in H. rewrite Forall_forall in H. apply (H x Hx).
Qed.
Lemma transform_commas es c r c' : transformCalls es c = Ok r c' -> commas_allowed r.
Proof.
  unfold transformCalls, commas_allowed. destruct es as [|m es]; [intros [= <- _]; discriminate|].
  destruct (transform_from m es) as [r0 b] eqn:E. intros K HC. destruct b.
  - unfold bind in K. destruct (check_commas r0 c) as [[] c1| |] eqn:E1; try discriminate. injection K as <- _.
    apply check_commas_none in E1. congruence.
  - injection K as <- _. eapply transform_last; [apply Nat.le_refl|exact E].
Qed.
Lemma transformCalls_ok ns ds c es : St true ns ds c -> GL is_statement ns ds es ->
  wp Er (transformCalls es) c (post true ns ds (fun ds' l => GL is_statement ns ds' l /\ commas_allowed l)).
Proof.
  intros HS H. pose proof (transformCalls_ok0 HS H) as W. unfold wp in *. destruct (transformCalls es c) eqn:E; try exact W.
  destruct W as (ds' & W1 & W2 & W3). apply transform_commas in E. exists ds'. split; [exact W1|]. split; [exact W2|]. split; [exact W3|exact E].
Qed.
Lemma statement_ok ns ds c : St true ns ds c -> wp Er (syntacticStatement rec) c (post true ns ds (fun ds' => G is_statement ns ds')).
Proof.
  intros HS. unfold syntacticStatement. g.
  - lst.
  - destruct HR0 as [HR0 Hl]. cbn [List.length] in Hl.
    destruct a0 as [|x [|y l]]; [cbn in Hl; lia|g; fin; eapply G_sub; [|eassumption]; auto with roles|].
    g. fin. eapply node; [reflexivity|split; [role|cbn; lia]|exact I|reflexivity|cbn [children]; okl|reflexivity].
Qed.
Ltac sub_step ::=
  match goal with
  | |- wp _ (transformCalls _) _ _ => call transformCalls_ok
  | |- wp _ (syntacticStatement _) _ _ => call statement_ok
  end.
Lemma parse_ok ns ds c e single : St true ns ds c ->
  wp Er (parse_body rec e single) c (post true ns ds (fun ds' => G (if single then is_expression else is_block) ns ds')).
Proof.
  intros HS. unfold parse_body. g; try (fin; assumption).
  - fin. build.
  - apply GL_nil.
  - assumption.
  - match goal with H : GL _ _ _ _ /\ commas_allowed _ |- _ => destruct H end. fin. build.
Qed.
Lemma commas_ok ns ds c acc : St true ns ds c -> GL is_expression ns ds acc ->
  wp Er (commas_body rec acc) c (post true ns ds (fun ds' l => GL is_expression ns ds' l /\ (List.length acc <= List.length l)%nat)).
Proof.
  intros HS H. unfold commas_body. g.
  - lst.
  - fin. destruct HR1 as [H1 H2]. split; [exact H1|]. rewrite app_length in H2. lia.
  - fin. auto.
Qed.
Lemma statements_ok ns ds c e acc : St true ns ds c -> GL is_statement ns ds acc ->
  wp Er (statements_body rec e acc) c (post true ns ds (fun ds' => GL is_statement ns ds')).
Proof. intros HS H. unfold statements_body. g; try (fin; assumption); lst. Qed.

Lemma name_node ns ds p s : G is_expression ns ds (EQName p s).
Proof. build. Qed.
Lemma handleKeyword_ok ns ds c : St true ns ds c -> wp Er (handleKeyword rec) c (post true ns ds (fun ds' => G is_expression ns ds')).
Proof. intros HS. unfold handleKeyword. g; try (fin; assumption); try apply name_node; fin; apply name_node. Qed.
Ltac sub_step ::=
  match goal with
  | |- wp _ (transformCalls _) _ _ => call transformCalls_ok
  | |- wp _ (syntacticStatement _) _ _ => call statement_ok
  | |- wp _ (handleKeyword _) _ _ => call handleKeyword_ok
  end.
Lemma pair_node' ns ds p k v : G is_expression ns ds k -> G is_parameters ns ds v -> G is_pair ns ds (EKeyed p k v).
Proof. intros H1 H2. eapply node; [reflexivity|split; [role|right; role]|exact I|reflexivity|cbn [children]; okl|reflexivity]. Qed.
Lemma pair_node ns ds p k v : G is_expression ns ds k -> G is_expression ns ds v -> G is_pair ns ds (EKeyed p k v).
Proof. intros H1 H2. eapply node; [reflexivity|split; [role|left; role]|exact I|reflexivity|cbn [children]; okl|reflexivity]. Qed.
Lemma argument_ok ns ds c : St true ns ds c -> wp Er (argument rec) c (post true ns ds (fun ds' => G arg ns ds')).
Proof.
  intros HS. unfold argument. g; fin.
  - eapply G_sub; [|now apply pair_node]. unfold arg. intros e ->. apply orb_true_r.
  - eapply G_sub; [|eassumption]. unfold arg. now intros e ->.
Qed.
Lemma keyedEntry_ok ns ds c : St true ns ds c -> wp Er (keyedEntry rec) c (post true ns ds (fun ds' => G is_pair ns ds')).
Proof. intros HS. unfold keyedEntry. g; fin. now apply pair_node. Qed.
Lemma selectorEntry_ok ns ds c : St true ns ds c -> wp Er (selectorEntry rec) c (post true ns ds (fun ds' => G is_selector_entry ns ds')).
Proof. intros HS. unfold selectorEntry. g; fin. build. Qed.
Lemma identifier_ok ns ds c : St true ns ds c -> wp Er (identifier rec) c (post true ns ds (fun ds' _ => True)).
Proof. intros HS. unfold identifier. g; fin; exact I. Qed.
Lemma identifierExpr_ok ns ds c : St true ns ds c -> wp Er (identifierExpr rec) c (post true ns ds (fun ds' _ => True)).
Proof. intros HS. unfold identifierExpr. g; fin; exact I. Qed.
Lemma typeName_ok ns ds c : St true ns ds c -> wp Er (typeName rec) c (post true ns ds (fun ds' x => match x with Some e => G is_type ns ds' e /\ exists p s, e = EQRef p s | None => True end)).
Proof. intros HS. unfold typeName. g; fin; [|exact I]. split; [build|eauto]. Qed.
Lemma array_ok ns ds c : St true ns ds c -> wp Er (arrayExpression rec) c (post true ns ds (fun ds' => GL is_expression ns ds')).
Proof. intros HS. unfold arrayExpression. g; [split; [apply GL_nil|discriminate]|]. fin. now apply join_ok. Qed.
Lemma access_node ns ds p e l : G is_expression ns ds e -> GL is_expression ns ds l -> G is_expression ns ds (EAccess p e l).
Proof. intros. build. Qed.
Ltac sub_step ::=
  match goal with
  | |- wp _ (transformCalls _) _ _ => call transformCalls_ok
  | |- wp _ (syntacticStatement _) _ _ => call statement_ok
  | |- wp _ (handleKeyword _) _ _ => call handleKeyword_ok
  | |- wp _ (argument _) _ _ => call argument_ok
  | |- wp _ (keyedEntry _) _ _ => call keyedEntry_ok
  | |- wp _ (selectorEntry _) _ _ => call selectorEntry_ok
  | |- wp _ (identifier _) _ _ => call identifier_ok
  | |- wp _ (identifierExpr _) _ _ => call identifierExpr_ok
  | |- wp _ (typeName _) _ _ => call typeName_ok
  | |- wp _ (arrayExpression _) _ _ => call array_ok
  end.
Lemma parameterType_ok ns ds c : St true ns ds c -> wp Er (parameterType_body rec) c (post true ns ds (fun ds' => G is_type ns ds')).
Proof.
  intros HS. unfold parameterType_body. do 2 (apply wp_bind; g1). destruct a0 as [e|]; [|g].
  destruct HR as [HR (p & s & ->)]. g; fin; [|assumption].
  assert (G is_expression ns ds3 (EQRef p s)) by (eapply G_sub; [apply type_expr|assumption]). build.
Qed.
Lemma parameterListOf_ok ns ds c p : St true ns ds c -> p <> PStepProperty -> wp Er (parameterListOf rec p) c (post true ns ds (fun ds' => GL (prod_role p) ns ds')).
Proof. intros HS Hp. unfold parameterListOf. g; try (split; [apply GL_nil|congruence]); fin; try assumption; apply GL_nil. Qed.
Lemma parameterList_ok ns ds c : St true ns ds c -> wp Er (parameterList rec) c (post true ns ds (fun ds' => GL is_param ns ds')).
Proof. intros HS. unfold parameterList. now apply parameterListOf_ok. Qed.
Lemma returnParameters_ok ns ds c : St true ns ds c -> wp Er (returnParameters rec) c (post true ns ds (fun ds' => GL is_param ns ds')).
Proof. intros HS. unfold returnParameters. now apply parameterListOf_ok. Qed.
Lemma lambdaParameterList_ok ns ds c : St true ns ds c -> wp Er (lambdaParameterList rec) c (post true ns ds (fun ds' => GL is_param ns ds')).
Proof. intros HS. unfold lambdaParameterList. g; [split; [apply GL_nil|discriminate]|]. fin. assumption. Qed.
Lemma optParameterType_ok ns ds c : St true ns ds c -> wp Er (optParameterType rec) c (post true ns ds (fun ds' => GO is_type ns ds')).
Proof. intros HS. unfold optParameterType. g; fin; first [assumption|exact I]. Qed.
Lemma parameterName_ok ns ds c : St true ns ds c -> wp Er (parameterName rec) c (post true ns ds (fun ds' _ => True)).
Proof. intros HS. unfold parameterName. g; fin; exact I. Qed.
Lemma attributeAlias_ok ns ds c : St true ns ds c -> wp Er (attributeAlias rec) c (post true ns ds (fun ds' => G is_expression ns ds')).
Proof. intros HS. unfold attributeAlias. g. fin. build. Qed.
Ltac sub_step ::=
  match goal with
  | |- wp _ (transformCalls _) _ _ => call transformCalls_ok
  | |- wp _ (syntacticStatement _) _ _ => call statement_ok
  | |- wp _ (handleKeyword _) _ _ => call handleKeyword_ok
  | |- wp _ (argument _) _ _ => call argument_ok
  | |- wp _ (keyedEntry _) _ _ => call keyedEntry_ok
  | |- wp _ (selectorEntry _) _ _ => call selectorEntry_ok
  | |- wp _ (identifier _) _ _ => call identifier_ok
  | |- wp _ (identifierExpr _) _ _ => call identifierExpr_ok
  | |- wp _ (typeName _) _ _ => call typeName_ok
  | |- wp _ (arrayExpression _) _ _ => call array_ok
  | |- wp _ (parameterList _) _ _ => call parameterList_ok
  | |- wp _ (returnParameters _) _ _ => call returnParameters_ok
  | |- wp _ (lambdaParameterList _) _ _ => call lambdaParameterList_ok
  | |- wp _ (optParameterType _) _ _ => call optParameterType_ok
  | |- wp _ (parameterName _) _ _ => call parameterName_ok
  | |- wp _ (attributeAlias _) _ _ => call attributeAlias_ok
  end.
Lemma param_node ns ds p n v t r : GO is_expression ns ds v -> GO is_type ns ds t -> G is_param ns ds (EParam p n v t r).
Proof. intros. build. Qed.
Lemma parameter_ok ns ds c : St true ns ds c -> wp Er (parameter rec) c (post true ns ds (fun ds' => G is_param ns ds')).
Proof. intros HS. unfold parameter. cbv zeta. g; fin; apply param_node; first [assumption|exact I]. Qed.
Lemma returnParameter_ok ns ds c : St true ns ds c -> wp Er (returnParameter rec) c (post true ns ds (fun ds' => G is_param ns ds')).
Proof.
  intros HS. unfold returnParameter. g; try (split; [apply GL_nil|discriminate]); fin; apply param_node; try assumption; try exact I; now apply list_node.
Qed.
Lemma params_pair ns ds p k q l : o_workflow o = true -> G is_expression ns ds k -> GL is_param ns ds l -> G is_pair ns ds (EKeyed p k (EList q l)).
Proof.
  intros Hw Hk H. destruct l as [|x l]; [apply pair_node; [exact Hk|apply list_node, GL_nil]|].
  apply pair_node'; [exact Hk|]. assert (is_param x = true) by (inversion H; eapply G_role; eassumption).
  eapply node; [reflexivity|right; role|intros _; exact Hw|reflexivity|cbn [children]; okl|assumption].
Qed.
Lemma stepProperty_ok ns ds c : o_workflow o = true -> St true ns ds c -> wp Er (stepProperty rec) c (post true ns ds (fun ds' => G is_pair ns ds')).
Proof. intros HW HS. unfold stepProperty. g; fin; first [apply params_pair; [exact HW|apply name_node|assumption]|apply pair_node; [apply name_node|assumption]]. Qed.
Lemma stateAttribute_ok ns ds c : St true ns ds c -> wp Er (stateAttribute rec) c (post true ns ds (fun ds' => G is_pair ns ds')).
Proof. intros HS. unfold stateAttribute. g; fin; apply pair_node; try apply name_node; assumption. Qed.
Lemma produce_ok ns ds c p : (p = PStepProperty -> o_workflow o = true) -> St true ns ds c ->
  wp Er (produce rec p) c (post true ns ds (fun ds' => G (prod_role p) ns ds')).
Proof.
  intros HW HS. unfold produce. destruct p; [now apply argument_ok|now apply keyedEntry_ok|now apply selectorEntry_ok| |apply stepProperty_ok; auto|now apply stateAttribute_ok|
    now apply parameter_ok|now apply returnParameter_ok|now apply attributeAlias_ok].
  g. fin. assumption.
Qed.
Lemma expressions_ok ns ds c e p acc : (p = PStepProperty -> o_workflow o = true) -> St true ns ds c -> GL (prod_role p) ns ds acc ->
  wp Er (expressions_body rec e p acc) c (post true ns ds (fun ds' => GL (prod_role p) ns ds')).
Proof.
  intros HW HS H. unfold expressions_body. apply wp_bind. g1. cbn beta. destruct (tok_eqb t e); [g; fin; assumption|].
  apply wp_bind. call produce_ok; [exact HW|]. g; try (fin; lst). split; [lst|exact HW].
Qed.
(** the text of an operator, or of one of two keywords *)
Definition said (t : tok) : option str :=
  match t with
  | TInEdge | TInEdgeSub | TOutEdge | TOutEdgeSub | TAssign | TAddAssign | TSubtractAssign | TFarrow | TParrow
  | TMatch | TNotMatch | TMultiply | TDivide | TRemainder | TAdd | TSubtract | TLshift | TRshift
  | TEqual | TNotEqual | TLess | TLessEqual | TGreater | TGreaterEqual => Some (tokenMap t)
  | TProduces => Some (lit "produces")
  | TConsumes => Some (lit "consumes")
  | _ => None
  end.
Lemma wp_text ns ds c t s (Q : str -> ctx -> Prop) : St true ns ds c -> c_tok c = t -> said t = Some s -> Q s c -> wp Er tokenString c Q.
Proof.
  intros HS Et Es HQ. pose proof (wp_paired HS) as HP. rewrite Et in HP. unfold wp, tokenString, bind, ask, ret.
  destruct t; cbn in HP, Es; try discriminate; injection Es as <-; rewrite HP; cbv iota; rewrite ?Et; exact HQ.
Qed.
Ltac at_tok := apply wp_bind; eapply wp_curTok_at; [eassumption|]; intros _; cbn beta;
  match goal with |- context [c_tok ?c] => destruct (c_tok c) eqn:Et end.
Ltac op_text := apply wp_bind; eapply wp_text; [eassumption|eassumption|reflexivity|]; cbn beta.
Lemma bin_node ns ds p k op a b : text_in op (operator_texts k) -> G is_expression ns ds a -> G is_expression ns ds b -> G is_expression ns ds (EBin p k op a b).
Proof. intros. build. Qed.
Lemma relLoop_ok ns ds c e : St true ns ds c -> G is_expression ns ds e -> wp Er (relLoop_body rec e) c (post true ns ds (fun ds' => G is_expression ns ds')).
Proof. intros HS H. unfold relLoop_body. at_tok; try (g; fin; assumption); op_text; g; try (fin; assumption); apply bin_node; first [assumption|cbn; auto 10]. Qed.
Lemma relationship_ok ns ds c : St true ns ds c -> wp Er (relationship_body rec) c (post true ns ds (fun ds' => G is_expression ns ds')).
Proof. intros HS. unfold relationship_body. g; try (fin; assumption). assumption. Qed.
Lemma resource_ok ns ds c : St true ns ds c -> wp Er (resource rec) c (post true ns ds (fun ds' => G is_expression ns ds')).
Proof. intros HS. unfold resource. g; try (fin; assumption). assumption. Qed.
Lemma assignLoop_ok ns ds c e : St true ns ds c -> G is_expression ns ds e -> wp Er (assignLoop_body rec e) c (post true ns ds (fun ds' => G is_expression ns ds')).
Proof. intros HS H. unfold assignLoop_body. at_tok; try (g; fin; assumption); op_text; g; try (fin; assumption); apply bin_node; first [assumption|cbn; auto 10]. Qed.
Lemma step_ok ns ds c : St true ns ds c -> wp Er (step rec) c (post true ns ds (fun ds' => G is_expression ns ds')).
Proof.
  intros HS. unfold step. apply wp_bind. g1. apply wp_bind. call resource_ok. apply wp_bind. g1. destruct (o_workflow o) eqn:Ew; [|g; fin; assumption].
  destruct a0; try (g; fin; assumption). g; try (fin; assumption). exact Ew.
Qed.
Lemma assignment_ok ns ds c : St true ns ds c -> wp Er (assignment_body rec) c (post true ns ds (fun ds' => G is_expression ns ds')).
Proof. intros HS. unfold assignment_body. apply wp_bind. call step_ok. g; [assumption|]. fin. assumption. Qed.
Lemma className_ok ns ds c : St true ns ds c -> wp Er (className rec) c (post true ns ds (fun ds' _ => True)).
Proof. intros HS. unfold className. g; fin; exact I. Qed.
Lemma braces_ok ns ds c : St true ns ds c -> wp Er (braces rec) c (post true ns ds (fun ds' => G is_block ns ds')).
Proof. intros HS. unfold braces. g. fin. assumption. Qed.
Ltac sub_step ::=
  match goal with
  | |- wp _ (transformCalls _) _ _ => call transformCalls_ok
  | |- wp _ (syntacticStatement _) _ _ => call statement_ok
  | |- wp _ (handleKeyword _) _ _ => call handleKeyword_ok
  | |- wp _ (selectorEntry _) _ _ => call selectorEntry_ok
  | |- wp _ (identifier _) _ _ => call identifier_ok
  | |- wp _ (typeName _) _ _ => call typeName_ok
  | |- wp _ (arrayExpression _) _ _ => call array_ok
  | |- wp _ (parameterList _) _ _ => call parameterList_ok
  | |- wp _ (lambdaParameterList _) _ _ => call lambdaParameterList_ok
  | |- wp _ (className _) _ _ => call className_ok
  | |- wp _ (braces _) _ _ => call braces_ok
  | |- wp _ (qualifiedName _) _ _ => eapply wp_qual; [eassumption|]
  end.
Lemma capability_ok ns ds c e k : text_in k ["consumes"; "produces"]%string -> (match e with EQName _ _ | EQRef _ _ | EReserved _ _ _ | EAccess _ _ _ => true | _ => false end = true) ->
  St true ns ds c -> G is_expression ns ds e -> wp Er (capabilityMapping rec e k) c (post true ns ds (fun ds' => G is_expression ns ds')).
Proof.
  intros Ho Hk HS H. unfold capabilityMapping.
  do 8 (apply wp_bind; g1; [try apply GL_nil ..|]). apply wp_bind.
  eapply wp_weaken with (Q := fun e' c' => St true ns ds4 c' /\ G is_expression ns ds4 e' /\ is_component e' = true).
  { destruct e; try discriminate; g; (split; [eassumption|split; [first [assumption|apply name_node]|reflexivity]]). }
  cbn beta. intros e' c' (HS' & He' & Hc'). g. add.
Qed.
Lemma expression_ok ns ds c : St true ns ds c -> wp Er (expression_body rec) c (post true ns ds (fun ds' => G is_expression ns ds')).
Proof.
  intros HS. unfold expression_body. do 2 (apply wp_bind; g1; [try assumption ..|]).
  assert (R : forall c', St true ns ds1 c' -> wp Er (ret a0) c' (post true ns ds (fun ds' => G is_expression ns ds'))) by (intros; g; fin; assumption).
  assert (K : forall c', St true ns ds1 c' -> (c_tok c' = TConsumes \/ c_tok c' = TProduces) -> wp Er (capToken <- tokenString;; match a0 with
    | EQName _ _ | EQRef _ _ | EReserved _ _ _ | EAccess _ _ _ => capabilityMapping rec a0 capToken
    | _ => ret a0 end) c' (post true ns ds (fun ds' => G is_expression ns ds'))).
  { clear_St. intros c' HS [Et|Et]; op_text; (destruct a0; try (apply R; assumption); (call capability_ok; [cbn; auto|reflexivity|assumption|]; fin; assumption)). }
  at_tok; try (apply R; assumption); apply K; auto.
Qed.
Lemma selectors_ok ns ds c e : St true ns ds c -> G is_expression ns ds e -> wp Er (selectorsExpression rec e) c (post true ns ds (fun ds' => G is_expression ns ds')).
Proof.
  intros HS H. unfold selectorsExpression. g; [split; [apply GL_nil|discriminate]| |]; fin; [build|].
  match goal with |- G _ _ _ (ESelector _ _ ?l) => assert (GL is_selector_entry ns ds1 l) by lst end. build.
Qed.
Lemma selectLoop_ok ns ds c e : St true ns ds c -> G is_expression ns ds e -> wp Er (selectLoop_body rec e) c (post true ns ds (fun ds' => G is_expression ns ds')).
Proof.
  intros HS H. unfold selectLoop_body. apply wp_bind. g1. destruct (tok_eqb _ _); [|g; fin; assumption].
  apply wp_bind. call selectors_ok; [assumption|]. g; try assumption. fin. assumption.
Qed.
Lemma operand_ok ns ds c l : St true ns ds c -> wp Er (level_operand rec l) c (post true ns ds (fun ds' => G is_expression ns ds')).
Proof. intros HS. unfold level_operand. g; fin; assumption. Qed.
Lemma framed_op_text k : framed (level_op_text k).
Proof. unfold level_op_text. framed_tac; auto with framed. Qed.
Hint Resolve framed_op_text : framed.
Lemma level_ok ns ds c l : St true ns ds c -> wp Er (level_body rec l) c (post true ns ds (fun ds' => G is_expression ns ds')).
Proof. intros HS. unfold level_body. apply wp_bind. call operand_ok. g; [assumption|]. fin. assumption. Qed.
Lemma levelLoop_ok ns ds c l e : St true ns ds c -> G is_expression ns ds e -> wp Er (levelLoop_body rec l e) c (post true ns ds (fun ds' => G is_expression ns ds')).
Proof.
  intros HS H. unfold levelLoop_body. apply wp_bind. eapply wp_curTok_at; [eassumption|]. intros _. cbn beta.
  destruct (level_op l (c_tok c)) as [k|] eqn:Ek; [|g; fin; assumption].
  apply wp_bind. eapply wp_weaken with (Q := fun op c' => St true ns ds c' /\ text_in op (operator_texts k)).
  { destruct (c_tok c) eqn:Et, l; try discriminate; injection Ek as <-; cbn [level_op_text];
      (eapply wp_text; [eassumption|eassumption|reflexivity|]) || (apply wp_ret); (split; [assumption|cbn; auto 10]). }
  cbn beta. intros op c' [HS' Hop]. clear HS.
  apply wp_bind; g1; [try exact I ..|]. apply wp_bind. call operand_ok. g; [now apply bin_node|]. fin. assumption.
Qed.
Lemma un_node ns ds p k e : k <> KText -> k <> KVariable -> k <> KRender -> G is_expression ns ds e -> G is_expression ns ds (EUn p k e).
Proof. intros. destruct k; try congruence; build. Qed.
Lemma unary_node_ok ns ds c k s m : k <> KText -> k <> KVariable -> k <> KRender -> St true ns ds c ->
  (forall ds c, St true ns ds c -> wp Er m c (post true ns ds (fun ds' => G is_expression ns ds'))) ->
  wp Er (unary_node rec k s m) c (post true ns ds (fun ds' => G is_expression ns ds')).
Proof.
  intros H1 H2 H3 HS Hm. unfold unary_node. apply wp_bind; g1. apply wp_bind. call Hm. g. fin. now apply un_node.
Qed.
Lemma signed_ok ns ds c s : St true ns ds c -> wp Er (signed_number rec s) c (post true ns ds (fun ds' => G is_expression ns ds')).
Proof. intros HS. unfold signed_number. g. fin. now apply G_set_pos. Qed.
Lemma unary_ok ns ds c : St true ns ds c -> wp Er (unary_body rec) c (post true ns ds (fun ds' => G is_expression ns ds')).
Proof.
  intros HS. unfold unary_body. apply wp_bind; g1. apply wp_bind; g1. cbn beta.
  assert (P : forall ds c, St true ns ds c -> wp Er (rec FPrimary) c (post true ns ds (fun ds' => G is_expression ns ds'))) by (intros; g; fin; assumption).
  assert (U : forall ds c, St true ns ds c -> wp Er (rec FUnary) c (post true ns ds (fun ds' => G is_expression ns ds'))) by (intros; g; fin; assumption).
  destruct t; try (apply P; assumption).
  all: try (apply unary_node_ok; [discriminate|discriminate|discriminate|assumption|first [exact P|exact U]]).
  all: try (g; try assumption; fin; assumption).
  - apply wp_bind; g1. destruct a0 as [ch ?]. destruct (isDecimalDigit ch).
    + apply wp_bind; g1. apply wp_bind. eapply wp_curTok_at; [eassumption|intros Hgt]. cbn beta. apply wp_bind.
      eapply wp_val_at; [eassumption|intros Hv]. cbn beta. apply wp_bind.
      match goal with HS : ShapeBase.St _ true _ _ ?cc |- _ => pose proof (wp_paired HS) as HP; generalize dependent (c_tok cc); generalize dependent (c_val cc) end.
      intros v _ t Hgt HP. destruct (tok_eqb t TInteger) eqn:Et; destruct v; try (g; fail);
        (eapply wp_set; [eassumption|assumption|exact I|destruct t; try discriminate; exact I|intros c' HS'; call signed_ok; fin; assumption]).
    + apply unary_node_ok; [discriminate|discriminate|discriminate|assumption|exact P].
  - g. call signed_ok. fin. assumption.
Qed.
Lemma collectQuery_ok ns ds c : St true ns ds c -> wp Er (collectQuery rec) c (post true ns ds (fun ds' => G is_query ns ds')).
Proof.
  intros HS. unfold collectQuery. cbv zeta. g; fin.
  all: try (match goal with |- G _ _ ?d (EQuery _ _ (ENop ?q)) => assert (G is_nop ns d (ENop q)) by build end; build).
  all: match goal with |- G _ _ _ (EQuery _ _ ?q) => eapply node; [reflexivity|cbn [grammar]; rewrite (G_role HR0); reflexivity|exact I|reflexivity|cbn [children]; okl|reflexivity] end.
Qed.
Lemma collect_ok ns ds c e : St true ns ds c -> G is_expression ns ds e -> wp Er (collectExpression rec e) c (post true ns ds (fun ds' => G is_expression ns ds')).
Proof.
  intros HS H. unfold collectExpression. apply wp_bind. call collectQuery_ok. g; try (apply GL_nil); fin.
  - assert (GL is_attribute ns ds0 []) by apply GL_nil. build.
  - build.
Qed.
Lemma optReturn_ok ns ds c : St true ns ds c -> wp Er (optReturnType rec) c (post true ns ds (fun ds' => GO is_type ns ds')).
Proof. intros HS. unfold optReturnType. g; fin; first [assumption|exact I]. Qed.
Lemma block_body e : is_block e = true -> is_body e = true. Proof. destruct e; cbn; congruence. Qed.
Hint Resolve block_body : roles.
Lemma lambda_ok ns ds c : St true ns ds c -> wp Er (lambda rec) c (post true ns ds (fun ds' => G is_lambda ns ds')).
Proof. intros HS. unfold lambda. do 3 (apply wp_bind; g1). apply wp_bind. call optReturn_ok. g. fin. build. Qed.
Lemma call_node ns ds p r f l b : G is_expression ns ds f -> GL is_expression ns ds l -> GO is_lambda ns ds b -> G is_expression ns ds (ECallNamed p r f l b).
Proof. intros. build. Qed.
Lemma call_ok ns ds c e : St true ns ds c -> G is_expression ns ds e -> wp Er (call_body rec e) c (post true ns ds (fun ds' => G is_expression ns ds')).
Proof.
  intros HS H. unfold call_body. cbv zeta. apply wp_bind; g1. apply wp_bind.
  eapply wp_weaken with (Q := post true ns ds (fun ds' r => GL is_expression ns ds' (fst r))).
  { g; [split; [apply GL_nil|discriminate]| |]; fin; cbn [fst]; [now apply join_ok|apply GL_nil]. }
  clear_St. intros [args e1] c' (ds1 & Hi & HS & HR). cbn [fst] in HR. upgrade Hi. apply wp_bind; g1. apply wp_bind.
  eapply wp_weaken with (Q := post true ns ds1 (fun ds' r => GO is_lambda ns ds' (fst r))).
  { destruct (tok_eqb t0 TPipe); [apply wp_bind; call lambda_ok|]; g; fin; cbn [fst]; first [assumption|exact I]. }
  clear_St. intros [b e2] c2 (ds2 & Hi2 & HS & HR2). cbn [fst] in HR2. upgrade Hi2.
  assert (D : forall p, wp Er (ret (ECallNamed p true e args b)) c2 (post true ns ds (fun ds' => G is_expression ns ds'))).
  { intros p. g. fin. now apply call_node. }
  destruct e; try apply D. destruct k; try apply D. g. fin. apply lhs_call_ok; try assumption.
Qed.
Lemma primary_ok ns ds c : St true ns ds c -> wp Er (primary_body rec) c (post true ns ds (fun ds' => G is_expression ns ds')).
Proof. intros HS. unfold primary_body. g; [assumption|]. fin. assumption. Qed.
Lemma primaryLoop_ok ns ds c e : St true ns ds c -> G is_expression ns ds e -> wp Er (primaryLoop_body rec e) c (post true ns ds (fun ds' => G is_expression ns ds')).
Proof.
  intros HS H. unfold primaryLoop_body. apply wp_bind; g1. cbn beta.
  assert (R : forall ds', incl ds ds' -> forall c' e', St true ns ds' c' -> G is_expression ns ds' e' -> wp Er (rec (FPrimaryLoop e')) c' (post true ns ds (fun ds' => G is_expression ns ds'))).
  { clear_St; clear H. intros. g; [assumption|]. fin. assumption. }
  assert (D : wp Er (match e with EBin p KNamedAccess _ _ _ => ret (convertLhsToCall e [] None p) | _ => ret e end) c (post true ns ds (fun ds' => G is_expression ns ds'))).
  { destruct e; try (g; fin; assumption). destruct k; try (g; fin; assumption). g. fin. apply lhs_call_ok; [|apply GL_nil|exact I]. split; [apply H|reflexivity]. }
  destruct t; try exact D; clear D.
  1,2: apply wp_bind; call collect_ok; [assumption|]; eapply R; [|eassumption|eassumption]; chain.
  1,3: g; try assumption; fin; assumption.
  - apply wp_bind. g1. apply wp_bind. g1. apply wp_bind; g1. apply wp_bind; g1.
    eapply R; [|eassumption|]; [chain|].
    match goal with |- G _ _ _ (if ?b then _ else _) => destruct b end; [|now apply access_node].
    apply call_node; [assumption| |exact I]. apply GL_cons; [now apply list_node|apply GL_nil].
  - g; try (apply bin_node; [left; reflexivity|assumption|first [assumption|apply name_node]]); fin; assumption.
Qed.
Lemma if_ok ns ds c u : St true ns ds c -> wp Er (if_body rec u) c (post true ns ds (fun ds' e => G is_expression ns ds' e /\ is_else e = true)).
Proof.
  intros HS. unfold if_body. do 5 (apply wp_bind; g1; [try exact I ..|]).
  apply wp_bind. eapply wp_weaken with (Q := post true ns ds2 (fun ds' e => G is_else ns ds' e)).
  { destruct t; g; fin; try solve [build].
    - eapply G_sub; [|eassumption]. intros [] K; cbn in *; congruence.
    - split; apply HR2.  }
  clear_St. intros e2 c2 (ds4 & Hi4 & HS & HR2). cbn beta in HR2. upgrade Hi4. g. fin. split; [|reflexivity].
  build.
Qed.
Lemma caseOption_ok ns ds c : St true ns ds c -> wp Er (caseOption rec) c (post true ns ds (fun ds' => G is_case_option ns ds')).
Proof. intros HS. unfold caseOption. g; [split; [apply GL_nil|discriminate]|]. fin. build. Qed.
Lemma caseOptions_ok ns ds c acc : St true ns ds c -> GL is_case_option ns ds acc -> wp Er (caseOptions_body rec acc) c (post true ns ds (fun ds' => GL is_case_option ns ds')).
Proof. intros HS H. unfold caseOptions_body. apply wp_bind. call caseOption_ok. g; try (fin; lst). lst. Qed.
Lemma case_ok ns ds c : St true ns ds c -> wp Er (caseExpression rec) c (post true ns ds (fun ds' => G is_expression ns ds')).
Proof. intros HS. unfold caseExpression. g; [apply GL_nil|]. fin. build. Qed.
Lemma framed_resourceShape e : framed (resourceShape e).
Proof. unfold resourceShape. destruct e; framed_tac. apply framed_of_sum. Qed.
Hint Resolve framed_resourceShape : framed.
Lemma resourceExpr_ok ns ds c s e f : St true ns ds c -> G is_expression ns ds e -> wp Er (resourceExpr_body rec s e f) c (post true ns ds (fun ds' => G is_expression ns ds')).
Proof.
  intros HS H. unfold resourceExpr_body. cbv zeta. do 4 (apply wp_bind; g1). apply wp_bind.
  eapply wp_weaken with (Q := post true ns ds0 (fun ds' => GO is_expression ns ds')).
  { g; fin; first [assumption|exact I]. }
  clear_St. intros ft c2 (ds2 & Hi2 & HS & HR2). cbn beta in HR2. upgrade Hi2.
  g; try (apply GL_nil); try (split; [|apply GL_nil]; assumption); try (split; [apply GL_nil|discriminate]); fin; try solve [build].
  apply call_node; [assumption| |exact I]. apply GL_cons; [|apply GL_nil]. eapply G_sub; [apply hash_expr|]. now apply hash_node.
Qed.
Lemma resourceBody_ok ns ds c t : St true ns ds c -> GO is_expression ns ds t -> wp Er (resourceBody rec t) c (post true ns ds (fun ds' => G is_resource_body ns ds')).
Proof.
  intros HS H. unfold resourceBody. destruct t as [t|]; [|g]. 
  change (G is_expression ns ds t) in H. g; [apply GL_nil|]. fin. build.
Qed.
Lemma bodies_ok ns ds c t acc : St true ns ds c -> GO is_expression ns ds t -> GL is_resource_body ns ds acc -> wp Er (bodies_body rec t acc) c (post true ns ds (fun ds' => GL is_resource_body ns ds')).
Proof.
  intros HS H H2. unfold bodies_body. apply wp_bind; g1. destruct (tok_eqb _ _); [g; fin; assumption|].
  apply wp_bind. call resourceBody_ok; [assumption|]. g; try (split; [assumption|lst]); fin; lst.
Qed.
Lemma attributeOperation_ok ns ds c : St true ns ds c -> wp Er (attributeOperation rec) c (post true ns ds (fun ds' => G is_attribute ns ds')).
Proof. intros HS. unfold attributeOperation. do 2 (apply wp_bind; g1).
  match goal with |- wp _ (if ?b then _ else _) _ _ => destruct b end; [g; fin; build|].
  apply wp_bind; g1. cbn beta. match goal with |- wp _ (match ?o with _ => _ end) _ _ => destruct o end; [|g].
  at_tok; try (g; fail); op_text; g; fin; build.
Qed.
Lemma attrOps_ok ns ds c acc : St true ns ds c -> GL is_attribute ns ds acc -> wp Er (attrOps_body rec acc) c (post true ns ds (fun ds' => GL is_attribute ns ds')).
Proof.
  intros HS H. unfold attrOps_body. apply wp_bind; g1. cbn beta.
  assert (D : forall c', St true ns ds c' -> wp Er (op <- attributeOperation rec;; cur <- curTok;;
    (if negb (tok_eqb cur TComma) then ret (acc ++ [op]) else rec FNextToken;; rec (FAttrOps (acc ++ [op])))) c' (post true ns ds (fun ds' => GL is_attribute ns ds'))).
  { clear_St. intros c' HS. apply wp_bind. call attributeOperation_ok. g; try (fin; lst). lst. }
  destruct t; try (apply D; assumption); g; fin; assumption.
Qed.
Lemma object_node ns ds p q l : GL is_expression ns ds l -> G is_expression ns ds (EAccess p (EQRef q (lit "Object")) l).
Proof. intros H. apply access_node; [build|exact H]. Qed.
Lemma alias_ok ns ds c : St true ns ds c -> wp Er (alias_body rec) c (post true ns ds (fun ds' => G is_expression ns ds')).
Proof.
  intros HS. unfold alias_body. cbv zeta. do 3 (apply wp_bind; g1).
  destruct a1; try (g; fin; assumption).
  - g. fin. apply object_node. lst.
  - destruct elements as [|x [|]]; try (g; fin; assumption).
    opn HR0. destruct Gr as [Gr|Gr].
    + g. fin. apply object_node. apply GL_of; [|exact Gr]. now constructor.
    + exfalso. destruct x; first [discriminate Gr|discriminate R].
  - apply wp_bind; g1. destruct (tok_eqb _ _); [|g; fin; assumption].
    apply wp_bind; g1. destruct a1; g; fin; opn HR1; reG.
    + apply access_node; [assumption|]. apply GL_cons; [|apply GL_nil]. eapply G_sub; [apply hash_expr|]. now apply hash_node.
    + apply object_node. apply GL_cons; [|apply GL_nil]. eapply G_sub; [apply hash_expr|]. apply hash_node.
      apply GL_cons; [|assumption]. apply pair_node; [build|assumption].
Qed.
Lemma optParams_ok ns ds c : St true ns ds c -> wp Er (optParameterList rec) c (post true ns ds (fun ds' => GL is_param ns ds')).
Proof. intros HS. unfold optParameterList. g; fin; first [assumption|apply GL_nil]. Qed.
Lemma definitionName_framed code : framed (definitionName code).
Proof. unfold definitionName. framed_tac; auto with framed. Qed.
Hint Resolve definitionName_framed : framed.
Lemma typeAlias_ok ns ds c : St true ns ds c -> wp Er (typeAliasOrDefinition rec) c (post true ns ds (fun ds' => G is_expression ns ds')).
Proof.
  intros HS. unfold typeAliasOrDefinition. cbv zeta. do 3 (apply wp_bind; g1). cbn beta.
  assert (D : forall ds1, incl ds ds1 -> forall c' n pn, St true ns ds1 c' -> wp Er (rec FNextToken;; b <- rec (FParse TRc false);; rec FNextToken;;
    p <- span a;; addDefinition (ETypeDef p n pn b)) c' (post true ns ds (fun ds' => G is_expression ns ds'))).
  { clear_St. intros. g. add. }
  destruct a0; try (g; fail).
  - g. add.
  - assert (U : forall c', St true ns ds0 c' -> wp Er (unexpectedToken (A := expr)) c' (post true ns ds (fun ds' => G is_expression ns ds'))) by (intros; g).
    destruct t; try (apply U; assumption).
    + apply wp_bind. call alias_ok. g. add.
    + eapply D; [|eassumption]. chain.
    + do 2 (apply wp_bind; g1). destruct a1 as [e|]; [|g]. destruct e; g. add.
Qed.
Ltac sub_step ::=
  match goal with
  | |- wp _ (className _) _ _ => call className_ok
  | |- wp _ (braces _) _ _ => call braces_ok
  | |- wp _ (optParameterList _) _ _ => call optParams_ok
  | |- wp _ (optReturnType _) _ _ => call optReturn_ok
  | |- wp _ (lambdaParameterList _) _ _ => call lambdaParameterList_ok
  | |- wp _ (parameterList _) _ _ => call parameterList_ok
  | |- wp _ (identifier _) _ _ => call identifier_ok
  | |- wp _ (arrayExpression _) _ _ => call array_ok
  | |- wp _ (qualifiedName _) _ _ => eapply wp_qual; [eassumption|]
  end.
Lemma function_ok ns ds c : St true ns ds c -> wp Er (functionDefinition rec) c (post true ns ds (fun ds' => G is_expression ns ds')).
Proof. intros HS. unfold functionDefinition. g. add. Qed.
Lemma plan_ok ns ds c : o_tasks o = true -> St true ns ds c -> wp Er (planDefinition rec) c (post true ns ds (fun ds' => G is_expression ns ds')).
Proof.
  intros HT HS. unfold planDefinition. do 4 (apply wp_bind; g1). apply wp_bind. eapply wp_push; [eassumption|]. clear_St. intros ? ?. g.
  eapply wp_pop; [eassumption|]. clear_St. intros ? ?. g. add.
Qed.
Lemma dotted_ok ns ds c s l : St true ns ds c -> wp Er (dotted_body rec s l) c (post true ns ds (fun ds' e => G is_expression ns ds' e /\ is_host e = true)).
Proof. intros HS. unfold dotted_body. g; fin; try assumption; (split; [build|reflexivity]). Qed.
Lemma value_ok ns ds c : St true ns ds c -> wp Er value_expr c (fun e c' => St true ns ds c' /\ G is_string_node ns ds e).
Proof. intros HS. unfold value_expr. g. split; [assumption|]. match goal with H : VO _ _ _ |- _ => apply H end. Qed.
Lemma hostname_ok ns ds c : St true ns ds c -> wp Er (hostname rec) c (post true ns ds (fun ds' => G is_host ns ds')).
Proof.
  intros HS. unfold hostname. apply wp_bind; g1. apply wp_bind; g1. cbn beta.
  destruct t; try (g; fin; first [build|split; apply HR]).
  all: apply wp_bind; eapply wp_weaken; [apply value_ok; eassumption|]; clear_St; intros ? ? [? ?]; g; fin; eapply G_sub; [apply string_host|assumption].
Qed.
Lemma hostnames_ok ns ds c acc : St true ns ds c -> GL is_host ns ds acc -> wp Er (hostnames_body rec acc) c (post true ns ds (fun ds' => GL is_host ns ds')).
Proof. intros HS H. unfold hostnames_body. apply wp_bind. call hostname_ok. g; try (fin; lst); lst. Qed.
Lemma node_ok ns ds c : St true ns ds c -> wp Er (nodeDefinition rec) c (post true ns ds (fun ds' => G is_expression ns ds')).
Proof.
  intros HS. unfold nodeDefinition. do 3 (apply wp_bind; g1; [try exact I; try apply GL_nil ..|]). apply wp_bind; g1. apply wp_bind.
  eapply wp_weaken with (Q := post true ns ds1 (fun ds' => GO is_host ns ds')).
  { destruct (tok_eqb _ _); [apply wp_bind; g1; apply wp_bind; call hostname_ok|]; g; fin; first [assumption|exact I]. }
  clear_St. intros ft c2 (ds2 & Hi2 & HS & HR2). cbn beta in HR2. upgrade Hi2. g. add.
Qed.
Lemma class_ok ns ds c s : St true ns ds c -> wp Er (classExpression rec s) c (post true ns ds (fun ds' => G is_expression ns ds')).
Proof.
  intros HS. unfold classExpression. cbv zeta. do 1 (apply wp_bind; g1). apply wp_bind. eapply wp_push; [eassumption|]. clear_St. intros ? ?.
  do 2 (apply wp_bind; g1). apply wp_bind.
  eapply wp_weaken with (Q := post true (ns ++ [trim_prefix (lit "::") a]) ds1 (fun ds' _ => True)).
  { g; fin; exact I. }
  clear_St. intros ft c2 (ds2 & Hi2 & HS & HR2). upgrade Hi2. g.
  eapply wp_pop; [eassumption|]. clear_St. intros ? ?. g. add. eauto.
Qed.
Lemma site_ok ns ds c : St true ns ds c -> wp Er (siteDefinition rec) c (post true ns ds (fun ds' => G is_expression ns ds')).
Proof. intros HS. unfold siteDefinition. g. add. Qed.
Lemma define_ok ns ds c k : (forall p, k <> DClass p) -> St true ns ds c -> wp Er (resourceDefinition rec k) c (post true ns ds (fun ds' => G is_expression ns ds')).
Proof. intros Hk HS. unfold resourceDefinition. g. destruct k; try add; exfalso; eapply Hk; reflexivity. Qed.
Lemma stepStyle_ok ns ds c : St true ns ds c -> wp Er (stepStyle rec) c (post true ns ds (fun ds' _ => True)).
Proof. intros HS. unfold stepStyle. g; fin; exact I. Qed.
Lemma stepName_ok ns ds c st : St true ns ds c -> wp Er (stepName rec st) c (post true ns ds (fun ds' _ => True)).
Proof. intros HS. unfold stepName. g; fin; exact I. Qed.
Lemma stepExpression_ok ns ds c : o_workflow o = true -> St true ns ds c -> wp Er (stepExpression rec) c (post true ns ds (fun ds' => G is_expression ns ds')).
Proof.
  intros HW HS. unfold stepExpression. do 2 (apply wp_bind; g1). destruct (tok_eqb _ _); [now apply function_ok|].
  apply wp_bind. call stepStyle_ok. apply wp_bind. call stepName_ok. g; [exact HW|]. fin. assumption.
Qed.
Lemma activities_ok ns ds c acc : o_workflow o = true -> St true ns ds c -> GL is_expression ns ds acc -> wp Er (activities_body rec acc) c (post true ns ds (fun ds' => GL is_expression ns ds')).
Proof.
  intros HW HS H. unfold activities_body. apply wp_bind; g1. destruct (tok_eqb _ _); [g; fin; assumption|].
  apply wp_bind. call stepExpression_ok; [exact HW|]. g; [split; [lst|exact HW]|]. fin. assumption.
Qed.
Lemma iterator_ok ns ds c n : o_workflow o = true -> St true ns ds c -> wp Er (iterator rec n) c (post true ns ds (fun ds' => G is_pair ns ds')).
Proof.
  intros HW HS. unfold iterator. cbv zeta. g. fin. apply pair_node; [apply name_node|].
  eapply G_sub; [apply hash_expr|]. apply hash_node.
  repeat (apply GL_cons; [first [apply pair_node; apply name_node|apply params_pair; [exact HW|apply name_node|assumption]]|]). apply GL_nil.
Qed.
Lemma deferred_map ns ds l : GL is_pair ns ds l -> GL is_pair ns ds (map convertToDeferred l).
Proof.
  unfold ShapeBase.GL. rewrite !Forall_forall. intros H x Hx. apply in_map_iff in Hx as (y & <- & Hy).
  destruct (H y Hy) as [Y1 Y2]. split; [now apply deferred_ok|now rewrite deferred_pair].
Qed.
Lemma acts_block ns ds p l : GL is_expression ns ds l -> GO is_block ns ds (match l with [] => None | _ => Some (EBlock p l) end).
Proof.
  intros H. assert (K : GL is_statement ns ds l) by (eapply GL_sub; [apply expr_stmt|assumption]). destruct l; [exact I|].
  change (G is_block ns ds (EBlock p (e :: l))). pose proof (GL_no_commas H). build.
Qed.
Definition step_names (st : style) (ns : list str) (n : str) := match st with SWorkflow => ns ++ [n] | _ => ns end.
Lemma stepDecl_ok ns ds c s st n top : o_workflow o = true -> St true ns ds c -> wp Er (stepDecl_body rec s st n top) c (post true ns ds (fun ds' => G is_expression ns ds')).
Proof.
  intros HW HS. unfold stepDecl_body. cbv zeta. apply wp_bind.
  eapply wp_weaken with (Q := fun _ c' => St true (step_names st ns n) ds c').
  { destruct st; try (apply wp_ret; exact HS). eapply wp_push; [eassumption|]. intros c' HS'. exact HS'. }
  clear_St. intros _ c' HS.
  do 4 (apply wp_bind; g1; [try exact I; try (split; [apply GL_nil|intros; exact HW]) ..|]).
  do 3 (apply wp_bind; g1). apply wp_bind.
  eapply wp_weaken with (Q := post true (step_names st ns n) ds2 (fun _ _ => True)).
  { g; fin; exact I. }
  clear_St. intros itn c2 (ds3 & Hi3 & HS & _). upgrade Hi3. apply wp_bind; g1. apply wp_bind.
  eapply wp_weaken with (Q := post true (step_names st ns n) ds3 (fun ds' => GL is_pair (step_names st ns n) ds')).
  { destruct (tok_eqb _ _); [|g; fin; assumption]. apply wp_bind; g1. match goal with |- wp _ (if ?b then _ else _) _ _ => destruct b end; [|g].
    apply wp_bind. call iterator_ok; [exact HW|]. g. fin. lst. }
  clear_St. intros props c3 (ds4 & Hi4 & HS & HP). cbn beta in HP. upgrade Hi4. apply wp_bind; g1. apply wp_bind.
  assert (HO : forall q, GO is_hash (step_names st ns n) ds4 (match props with [] => None | _ => Some (EHash q props) end)).
  { intros q. destruct props; [exact I|]. now apply hash_node. }
  match goal with |- context [EStep _ _ _ ?m _] => assert (HM : GO is_hash (step_names st ns n) ds4 m) by apply HO; clear HO; revert HM;
    generalize m; intros prop HM end.
  eapply wp_weaken with (Q := post true ns ds4 (fun ds' => GO (fun d => is_block d || is_hash d) (step_names st ns n) ds')).
  { assert (BL : forall e, is_block e = true -> is_block e || is_hash e = true) by (intros e ->; reflexivity).
    destruct st; cbn [step_names] in *.
    1,3: g; fin; eapply G_sub; [exact BL|assumption].
    - g; [split; [apply GL_nil|discriminate]| |]; fin; [|exact I].
      match goal with K : GL is_pair ns ?d ?l |- context [map convertToDeferred ?l] =>
        pose proof (deferred_map K) as KM end.
      destruct (map convertToDeferred _) as [|x l]; [exact I|].
      eapply G_sub; [|now apply hash_node]. intros e ->. apply orb_true_r.
    - apply wp_bind.
      eapply wp_weaken with (Q := post true (ns ++ [n]) ds4 (fun ds' => GO is_block (ns ++ [n]) ds')).
      { g; try (split; [apply GL_nil|exact HW]); fin; try exact I.
        apply acts_block. assumption. }
      clear_St. intros b c4 (ds5 & Hi5 & HS & HB). cbn beta in HB. apply wp_bind. eapply wp_pop; [eassumption|]. clear_St. intros ? ?. g. fin.
      destruct b as [b|]; [|exact I]. eapply G_sub; [exact BL|exact HB]. }
  clear_St. intros blk c4 (ds5 & Hi5 & HS & HB). cbn beta in HB. upgrade Hi5.
  assert (F : forall p, G is_expression ns ds5 (EStep p (join (lit "::") (ns ++ [n])) st prop blk)).
  { intros p. eapply node with (ns' := step_names st ns n).
    - cbn [naming]. destruct st; cbn [step_names]; eauto.
    - split; role.
    - exact HW.
    - reflexivity.
    - cbn [children]. apply Forall_app. split; okl.
    - reflexivity. }
  g.
  - eapply wp_add; [eassumption| |reflexivity|reflexivity|intros; fin; assumption].
    destruct (F a5) as [F1 _]. inversion F1; subst. eexists; eauto.
  - fin. apply F.
Qed.
Lemma leaf_ok ns ds c s mk : St true ns ds c -> (forall p c, St true ns ds c -> wp Er (mk p) c (fun e c' => St true ns ds c' /\ G is_expression ns ds e)) ->
  wp Er (leaf rec s mk) c (post true ns ds (fun ds' => G is_expression ns ds')).
Proof.
  intros HS Hm. unfold leaf. apply wp_bind; g1. apply wp_bind. eapply wp_weaken; [apply Hm; eassumption|]. clear_St. intros ? ? [? ?]. g. fin. assumption.
Qed.
Lemma atom_ok ns ds c : St true ns ds c -> wp Er (atom_body rec) c (post true ns ds (fun ds' => G is_expression ns ds')).
Proof.
  intros HS. unfold atom_body. do 3 (apply wp_bind; g1). cbn beta.
  destruct t; try (apply leaf_ok; [assumption|]; clear_St; intros; g; split; [assumption|build]).
  all: try (g; fail).
  all: try (apply wp_bind; eapply wp_weaken; [apply value_ok; eassumption|]; clear_St; intros ? ? [? ?]; g; fin; eapply G_sub; [apply string_expr|assumption]).
  all: try first [now apply case_ok|now apply function_ok|now apply node_ok|now apply site_ok|apply define_ok; [discriminate|assumption]|now apply plan_ok].
  all: try (g; fin; apply un_node; [discriminate|discriminate|discriminate|assumption]).
  all: try (g; fin; apply list_node; assumption).
  - g; [split; [apply GL_nil|discriminate]|]. fin. eapply G_sub; [apply hash_expr|now apply hash_node].
  - g; fin. build.
  - g; fin; (apply var_node; [reflexivity|]). 1: apply name_node. build.
  - g; [fin; apply name_node|]. call class_ok. fin. assumption.
  - g. fin. apply HR.
  - g; [|fin; apply name_node]. call typeAlias_ok. fin. assumption.
  - g. fin. apply HR.
Qed.
Lemma eppLambda_ok ns ds ps b p : o_epp o = true -> GL is_param ns ds ps -> G is_block ns ds b -> G is_epp_lambda ns ds (eppLambda ps b p).
Proof.
  intros HE Hp Hb. unfold eppLambda. assert (G is_template ns ds (EEpp p true b)) by build.
  eapply node; [reflexivity|split; [role|split; [reflexivity|exact I]]|exact I|reflexivity|cbn [children opt_list]; okl|].
  destruct b; try (destruct Hb; discriminate). reflexivity.
Qed.
Lemma asEpp_ok ns ds c e : o_epp o = true -> St true ns ds c -> G (fun e => is_expression e || is_epp_lambda e) ns ds e ->
  wp Er (asEppLambda e) c (post true ns ds (fun ds' => G is_epp_lambda ns ds')).
Proof.
  intros HE HS [H R]. unfold asEppLambda. apply wp_bind; g1.
  assert (D : forall c', St true ns ds c' -> is_expression e = true -> wp Er (ret (eppLambda [] (EBlock a [e]) a)) c' (post true ns ds (fun ds' => G is_epp_lambda ns ds'))).
  { clear_St. intros c' HS X. g. fin. apply eppLambda_ok; [exact HE|apply GL_nil|].
    assert (GL is_statement ns ds [e]) by (apply GL_cons; [split; [exact H|now apply expr_stmt]|apply GL_nil]). assert (commas_allowed [e]) by (apply no_commas; cbn; now rewrite X). build. }
  destruct e; try (apply D; [assumption|now rewrite orb_false_r in R]).
  - g. fin. apply eppLambda_ok; [exact HE|apply GL_nil|]. split; [exact H|reflexivity].
  - destruct e; try discriminate R. g. fin. split; [exact H|exact R].
Qed.
Lemma eppLoop_ok ns ds c acc : o_epp o = true -> St true ns ds c -> GL is_expression ns ds acc -> wp Er (eppLoop_body rec acc) c (post true ns ds (fun ds' => G is_epp_lambda ns ds')).
Proof.
  intros HE HS H. unfold eppLoop_body. apply wp_bind; g1. destruct (tok_eqb _ _).
  - apply wp_bind. call transformCalls_ok; [eapply GL_sub; [apply expr_stmt|assumption]|]. match goal with H : GL _ _ _ _ /\ commas_allowed _ |- _ => destruct H end. apply wp_bind; g1.
    call asEpp_ok; [exact HE| |fin; assumption]. assert (K : G is_block ns ds0 (EBlock a0 a)) by build. split; [apply K|reflexivity].
  - g; [split; [lst|exact HE]|]. fin. assumption.
Qed.
Theorem body_ok : respects o (body rec).
Proof.
  intros A f ns ds c HS HA. destruct f; cbn [needs gives body args_ok res_ok] in *.
  - now apply nextToken_ok.
  - now apply delim_body_ok.
  - now apply apply_body_ok.
  - now apply parse_ok.
  - now apply statements_ok.
  - now apply commas_ok.
  - apply expressions_ok; tauto.
  - now apply relationship_ok.
  - now apply relLoop_ok.
  - now apply assignment_ok.
  - now apply assignLoop_ok.
  - now apply expression_ok.
  - now apply selectLoop_ok.
  - now apply level_ok.
  - now apply levelLoop_ok.
  - now apply unary_ok.
  - now apply primary_ok.
  - now apply primaryLoop_ok.
  - now apply atom_ok.
  - now apply call_ok.
  - now apply parameterType_ok.
  - now apply if_ok.
  - now apply caseOptions_ok.
  - now apply resourceExpr_ok.
  - apply bodies_ok; tauto.
  - now apply attrOps_ok.
  - now apply hostnames_ok.
  - now apply dotted_ok.
  - apply activities_ok; tauto.
  - now apply stepDecl_ok.
  - apply eppLoop_ok; tauto.
Qed.
Definition root_role (single : bool) e := if single then is_root e || is_expression e else is_root e.
Lemma parseTop_ok ns ds c single : St false ns ds c -> wp Er (parseTop rec single) c (post true ns ds (fun ds' => G (root_role single) ns ds')).
Proof.
  intros HS. unfold parseTop. apply wp_bind; g1. 
  assert (RR : forall e, is_epp_lambda e = true -> root_role single e = true).
  { intros e K. unfold root_role, is_root. rewrite K, orb_true_r. destruct single; reflexivity. }
  destruct (o_epp o) eqn:HE.
  2:{ apply wp_bind; g1. g1. fin. unfold root_role. destruct single; cbv beta iota in *.
      - eapply G_sub; [|eassumption]. intros x ->. apply orb_true_r.
      - eapply G_sub; [|eassumption]. intros x K. unfold is_root. now rewrite K. }
  apply wp_bind. call consumeEPP_ok; [exact REC|exact HE|]. apply wp_bind; g1. apply wp_bind.
  eapply wp_weaken with (Q := post true ns ds0 (fun _ _ => True)).
  { g; fin; exact I. }
  clear_St. intros text c2 (ds1 & Hi1 & HS & _). apply wp_bind; g1. destruct (tok_eqb _ TEnd); [|destruct (tok_eqb _ TPipe)].
  - apply wp_bind; g1. call asEpp_ok; [exact HE|split; [|reflexivity]; apply G_ok with (f := is_expression); build|].
    fin. eapply G_sub; [exact RR|assumption].
  - destruct text; [|g]. do 4 (apply wp_bind; g1; [try exact I ..|]). call asEpp_ok; [exact HE| |fin; eapply G_sub; [exact RR|assumption]].
    eapply G_sub; [|apply eppLambda_ok; [exact HE|eassumption|eassumption]]. intros x ->. apply orb_true_r.
  - apply wp_bind; g1. g1; [|fin; eapply G_sub; [exact RR|assumption]].
    split; [|exact HE]. destruct text; [apply GL_nil|]. apply GL_cons; [build|apply GL_nil].
Qed.
End Rec.

Theorem run_ok o n : respects o (run n).
Proof.
  induction n as [|n IH]; [intros A f ns ds c _ _; exact I|]. intros A f. exact (@body_ok o (run n) IH A f).
Qed.
