(** * RulesProof: a manifest without errors obeys the rules of SpecRules *)
From Verif Require Import Base Ast Validator SpecVisit SpecValidate SpecOptions SpecRules VisitProof ValidateProof.
From Coq Require Import Lia ZifyBool.

Definition fine (c : chk) : Prop := exists l, c = inl l /\ forall i, In i l -> i_sev i <> SevError.
Lemma fine_app a b : fine (a +++ b) -> fine a /\ fine b.
Proof.
  intros (l & H & F). destruct a as [x|]; [|discriminate]. destruct b as [y|]; [|discriminate]. cbn in H. injection H as <-.
  split; [exists x|exists y]; split; auto; intros i Hi; apply F, in_or_app; auto.
Qed.
Lemma fine_concat l : fine (chk_concat l) -> forall c, In c l -> fine c.
Proof.
  induction l as [|a l IH]; intros H c Hc; [destruct Hc|]. change (chk_concat (a :: l)) with (a +++ chk_concat l) in H. apply fine_app in H as [H1 H2]. destruct Hc as [<-|Hc]; auto.
Qed.
Lemma fine_hard s c e a : fine (accept s c e a) -> severity_of s c = SevError -> False.
Proof. unfold accept. intros (l & H & F) E. rewrite E in H. injection H as <-. exact (F _ (or_introl eq_refl) eq_refl). Qed.
Lemma fine_panic q : fine (inr q) -> False.
Proof. intros (l & H & _). discriminate H. Qed.
Ltac no H := exfalso; first [exact (fine_hard H eq_refl) | exact (fine_panic H)].
Ltac split_fine H := apply fine_app in H; let K := fresh "F" in destruct H as [K H].

Lemma node_fine k text s e anc d : passes k text s e -> node_at e anc d -> fine (check text s anc k d).
Proof. intros (l & H & F) Hn. destruct (validate_node H Hn) as (l' & Hc & Hi). exists l'. split; [exact Hc|]. intros i Hin. apply F, Hi, Hin. Qed.
Lemma node_basic k text s e anc d : passes k text s e -> node_at e anc d -> (forall q n st p f, d <> EStep q n st p f) -> fine (check_basic text s anc d).
Proof.
  intros H Hn Hs. pose proof (node_fine H Hn) as F. unfold check in F. destruct k; cbv beta iota in F; [exact F| |].
  - destruct (catalogOperation d); [no F|exact F].
  - destruct d; try (destruct (catalogOperation _); [no F|exact F]); try exact F; try (exfalso; eapply Hs; reflexivity); cbn [catalogOperation] in F; try no F; try exact F;
    (match type of F with fine (if ?x then _ else _) => destruct x end; [no F|exact F]).
Qed.

(** ** Places *)
Lemma checkTop_top s e anc : fine (checkTop s e anc) -> at_top anc.
Proof.
  induction anc as [|c up IH]; intros H; [exists [], []; repeat split; auto|]. cbn [checkTop] in H.
  assert (St : is_program c \/ is_class c -> at_top (c :: up)).
  { intros Hc. exists [], (c :: up). repeat split; auto. right. exists c, up. auto. }
  destruct c; try (exfalso; no H).
  - assert (Hu : fine (checkTop s e up)) by (cbv zeta in H; destruct (_ && _); [exfalso; no H|exact H]).
    destruct (IH Hu) as (bs & u & -> & Hb & Hr). exists (EBlock p statements :: bs), u. split; [reflexivity|]. split; [constructor; [unfold is_block; repeat eexists|exact Hb]|exact Hr].
  - destruct k; try (exfalso; no H). apply St. right. unfold is_class. repeat eexists.
  - apply St. left. unfold is_program. repeat eexists.
Qed.
Lemma checkTop_very s e anc : very_top_definition e -> fine (checkTop s e anc) -> at_very_top anc.
Proof.
  intros He H. destruct anc as [|c up]; [left; reflexivity|right]. cbn [checkTop] in H.
  destruct c; try (exfalso; no H).
  - right. assert (N : match e with EFunc _ false _ _ _ _ | ETypeAlias _ _ _ | ETypeDef _ _ _ _ | ETypeMapping _ _ _ => true | _ => false end = true).
    { destruct e; try contradiction; try reflexivity. destruct plan; [contradiction|reflexivity]. }
    cbv zeta in H. rewrite N in H. destruct up as [|c' up]; [exfalso; no H|]. destruct (isProgram c') eqn:E; [|exfalso; no H].
    exists (EBlock p statements), c', up. split; [reflexivity|]. split; [unfold is_block; repeat eexists|]. destruct c'; try discriminate. unfold is_program. repeat eexists.
  - left. destruct k; try (exfalso; no H). do 2 eexists. split; [reflexivity|]. right. unfold is_class. repeat eexists.
  - left. do 2 eexists. split; [reflexivity|]. left. unfold is_program. repeat eexists.
Qed.
Lemma top_places k text s e anc d : passes k text s e -> node_at e anc d -> top_definition d -> at_top anc.
Proof.
  intros H Hn Hd. assert (F := node_basic H Hn). destruct d; try contradiction; specialize (F ltac:(intros; discriminate)); cbn [check_basic] in F.
  - destruct k0; try contradiction; unfold checkNamedDefinition in F; apply fine_app in F as [F _]; apply fine_app in F as [F _]; exact (checkTop_top F).
  - split_fine F. apply fine_app in F as [F _]. exact (checkTop_top F).
Qed.
Lemma very_top_places k text s e anc d : passes k text s e -> node_at e anc d -> very_top_definition d -> at_very_top anc.
Proof.
  intros H Hn Hd. assert (F := node_basic H Hn). pose proof Hd as Hd'. destruct d; try contradiction; specialize (F ltac:(intros; discriminate)); cbn [check_basic] in F.
  - destruct plan; [contradiction|]. unfold checkNamedDefinition in F. apply fine_app in F as [F _]. apply fine_app in F as [F _]. exact (checkTop_very Hd' F).
  - apply fine_app in F as [F _]. exact (checkTop_very Hd' F).
  - unfold checkTypeMapping in F. apply fine_app in F as [F _]. exact (checkTop_very Hd' F).
Qed.

(** ** Assignments *)
Lemma colons n : hasDoubleColon n = false -> ~ contains (lit "::") n.
Proof.
  intros H (a & b & ->). change (lit "::") with [58; 58] in H. induction a as [|x a IH]; [discriminate H|]. cbn [app hasDoubleColon] in H.
  apply IH. destruct (Z.eq_dec x 58) as [->|Hx].
  - destruct a as [|y a]; [discriminate H|]. cbn [app] in *. destruct (Z.eq_dec y 58) as [->|Hy]; [discriminate H|].
    revert H. clear - Hy. intros H. repeat (destruct y as [|y|y]; try exact H; try congruence).
  - clear - H Hx. repeat (destruct x as [|x|x]; try exact H; try congruence).
Qed.
Lemma assignments k text s e anc q op l r t : passes k text s e -> node_at e anc (EBin q KAssignment op l r) ->
  op = lit "=" /\ (assigned l t -> (forall p x ks, t <> EAccess p x ks) /\ (forall p x, t = EUn p KVariable x -> exists p' n, x = EQName p' n /\ ~ contains (lit "::") n)).
Proof.
  intros H Hn. assert (F := node_basic H Hn ltac:(intros; discriminate)). cbn [check_basic] in F. destruct (str_eqb op (lit "=")) eqn:E; [|exfalso; no F]. split; [now apply str_eqb_eq|].
  intros Ha. clear - F Ha. induction Ha as [t Ht|p l x t Hx Ha IH].
  - destruct t; cbn [checkAssign] in F; try (exfalso; no F); try (split; intros; discriminate). destruct k; try (split; intros; discriminate).
    split; [intros; discriminate|]. intros p' x E. injection E as -> <-. destruct t; try (exfalso; no F). destruct (hasDoubleColon name) eqn:E; [exfalso; no F|]. do 2 eexists. split; [reflexivity|]. apply colons, E.
  - apply IH. cbn [checkAssign] in F. exact (fine_concat F (in_map (checkAssign s) l x Hx)).
Qed.

(** ** Defaults *)
Lemma dup_fine s c : forall vs seen, fine (fst (dup_defaults s c seen vs)) ->
  ((if seen then 1 else 0) + default_count vs <= 1)%nat /\ snd (dup_defaults s c seen vs) = (seen || (0 <? default_count vs)%nat)%bool.
Proof.
  induction vs as [|v vs IH]; intros seen H; [destruct seen; cbn; auto|]. cbn [dup_defaults] in *.
  assert (D : default_count (v :: vs) = ((if isDefault v then 1 else 0) + default_count vs)%nat).
  { unfold default_count. cbn [filter]. destruct v; reflexivity. }
  rewrite D. destruct (isDefault v).
  - specialize (IH true). destruct (dup_defaults s c true vs) as [r b]. cbn [fst snd] in *. apply fine_app in H as [H1 H2]. destruct (IH H2) as [I1 I2]. destruct seen; [exfalso; no H1|]. rewrite I2. split; [lia|]. reflexivity.
  - exact (IH seen H).
Qed.
Lemma default_app a b : default_count (a ++ b) = (default_count a + default_count b)%nat.
Proof. unfold default_count. rewrite filter_app, app_length. reflexivity. Qed.
Lemma case_fine s c : forall os seen, fine (case_defaults s c seen os) -> ((if seen then 1 else 0) + default_count (flat_map option_values os) <= 1)%nat.
Proof.
  induction os as [|x os IH]; intros seen H; [destruct seen; cbn; lia|]. cbn [case_defaults] in H. destruct x; try (exfalso; no H).
  cbn [flat_map option_values]. rewrite default_app. pose proof (@dup_fine s c values seen) as D. destruct (dup_defaults s c seen values) as [r b]. cbn [fst snd] in D.
  apply fine_app in H as [H1 H2]. destruct (D H1) as [D1 D2]. specialize (IH _ H2). rewrite D2 in IH. destruct seen; cbn [orb] in IH; cbv iota in *; [lia|]. destruct (0 <? default_count values)%nat eqn:E; cbv iota in *; [apply Nat.ltb_lt in E|apply Nat.ltb_ge in E]; lia.
Qed.
Lemma sel_fine s c : forall os seen, fine (sel_defaults s c seen os) -> ((if seen then 1 else 0) + default_count (flat_map entry_key os) <= 1)%nat.
Proof.
  induction os as [|x os IH]; intros seen H; [destruct seen; cbn; lia|]. cbn [sel_defaults] in H. destruct x; try (exfalso; no H).
  cbn [flat_map entry_key]. rewrite default_app. assert (D : default_count [x1] = (if isDefault x1 then 1 else 0)%nat) by (destruct x1; reflexivity). rewrite D.
  destruct (isDefault x1); [|specialize (IH _ H); lia]. apply fine_app in H as [H1 H2]. specialize (IH _ H2). destruct seen; [exfalso; no H1|]; cbv iota in *; lia.
Qed.
Lemma case_one_default k text s e anc q t os : passes k text s e -> node_at e anc (ECase q t os) -> (default_count (flat_map option_values os) <= 1)%nat.
Proof. intros H Hn. assert (F := node_basic H Hn ltac:(intros; discriminate)). cbn [check_basic] in F. split_fine F. exact (case_fine F). Qed.
Lemma selector_one_default k text s e anc q t os : passes k text s e -> node_at e anc (ESelector q t os) -> (default_count (flat_map entry_key os) <= 1)%nat.
Proof. intros H Hn. assert (F := node_basic H Hn ltac:(intros; discriminate)). cbn [check_basic] in F. split_fine F. exact (sel_fine F). Qed.

(** ** Parameters *)
Lemma last_fine s : forall ps, fine (checkCaptureLast s ps) -> forall i q, nth_error ps i = Some q -> captures_rest q -> S i = List.length ps.
Proof.
  induction ps as [|x ps IH]; intros H i q Hi Hq; [destruct i; discriminate|]. destruct ps as [|y ps].
  { destruct i as [|i]; [reflexivity|]. destruct i; discriminate. }
  change (checkCaptureLast s (x :: y :: ps)) with ((match x with EParam _ n _ _ true => accept s CapturesRestNotLast x [("param"%string, AStr n)] | _ => none end) +++ checkCaptureLast s (y :: ps)) in H.
  apply fine_app in H as [H1 H2]. destruct i as [|i].
  - injection Hi as ->. destruct Hq as (p & n & v & t & ->). exfalso; no H1.
  - cbn [nth_error] in Hi. specialize (IH H2 i q Hi Hq). cbn [List.length] in *. lia.
Qed.
Lemma captures_last k text s e anc d ps i q : passes k text s e -> node_at e anc d ->
  (exists p n b r, d = EFunc p false n ps b r) \/ (exists p b r, d = ELambda p ps b r) ->
  nth_error ps i = Some q -> captures_rest q -> S i = List.length ps.
Proof.
  intros H Hn [(p & n & b & r & ->)|(p & b & r & ->)]; assert (F := node_basic H Hn ltac:(intros; discriminate)); cbn [check_basic] in F.
  - split_fine F. apply fine_app in F as [F _]. now apply last_fine with (s := s).
  - apply fine_app in F as [F _]. now apply last_fine with (s := s).
Qed.
Lemma none_fine s c ps : fine (checkNoCapture s c ps) -> forall q, In q ps -> ~ captures_rest q.
Proof. intros H q Hq (p & n & v & t & ->). pose proof (fine_concat H (in_map _ ps _ Hq)) as F. no F. Qed.
Lemma reserved_fine s c : forall ps, fine (checkReservedParams s c ps) -> forall p n v t r, In (EParam p n v t r) ps -> n <> lit "name" /\ n <> lit "title".
Proof.
  induction ps as [|x ps IH]; intros H p n v t r Hi; [destruct Hi|]. cbn [checkReservedParams] in H. destruct x; try (exfalso; no H). apply fine_app in H as [H1 H2].
  destruct Hi as [E|Hi]; [|eauto]. injection E as -> -> -> -> ->. destruct (mem_str n (map lit reservedParameters)) eqn:E; [exfalso; no H1|]. split; intros ->; vm_compute in E; discriminate.
Qed.
Lemma class_parameters k text s e anc q dk n ps b x : passes k text s e -> node_at e anc (EDef q dk n ps b) -> dk <> DApplication -> In x ps ->
  ~ captures_rest x /\ forall p m v t r, x = EParam p m v t r -> m <> lit "name" /\ m <> lit "title".
Proof.
  intros H Hn Hd Hx. assert (F := node_basic H Hn ltac:(intros; discriminate)).
  assert (G : fine (checkNoCapture s (EDef q dk n ps b) ps) /\ fine (checkReservedParams s (EDef q dk n ps b) ps)).
  { cbn [check_basic] in F. destruct dk; try (exfalso; apply Hd; reflexivity); split_fine F; split_fine F; apply fine_app in F as [F _]; auto. }
  destruct G as [G1 G2]. split; [exact (none_fine G1 Hx)|]. intros p m v t r ->. eapply reserved_fine; [exact G2|exact Hx].
Qed.

(** ** Names *)
Lemma word_ok c : isWord c = true -> word_char c.
Proof. unfold isWord, isUppercaseLetter, isLowercaseLetter, isDecimalDigit, in_range, word_char. lia. Qed.
Lemma tail_path p n : segments p false n = true ->
  exists r, Forall word_char r /\ (n = r \/ exists m, n = r ++ lit "::" ++ m /\ (List.length m < List.length n)%nat /\ segments p true m = true).
Proof.
  induction n as [|c n IH]; intros H; [exists []; auto|]. cbn [segments] in H. destruct (isWord c) eqn:E.
  - destruct (IH H) as (r & Hr & [->|(m & -> & Hm & Hs)]); exists (c :: r); (split; [constructor; [now apply word_ok|exact Hr]|]); [now left|].
    right. exists m. split; [reflexivity|]. split; [cbn [List.length]; lia|exact Hs].
  - destruct n as [|d n]; [discriminate|]. apply Bool.andb_true_iff in H as [H Hs]. apply Bool.andb_true_iff in H as [H1 H2]. apply Z.eqb_eq in H1, H2. subst c d.
    exists []. split; [constructor|]. right. exists n. split; [reflexivity|]. split; [cbn [List.length]; lia|exact Hs].
Qed.
Lemma segments_path p first : (forall c, p c = true -> fst first <= c <= snd first) -> forall n, segments p true n = true -> name_path first n.
Proof.
  intros Hp. enough (G : forall k n, (List.length n <= k)%nat -> segments p true n = true -> name_path first n) by (intros n; apply (G (List.length n)); auto).
  induction k as [|k IH]; intros n Hk H; (destruct n as [|c n]; [discriminate|]); [cbn in Hk; lia|]. cbn [segments] in H. apply Bool.andb_true_iff in H as [Hc H].
  destruct (tail_path H) as (r & Hr & [->|(m & -> & Hm & Hs)]); [now apply one_segment; auto|]. apply more_segments; auto. apply IH; [cbn [List.length] in Hk; lia|exact Hs].
Qed.
Definition named (d : expr) : option (str * (Z * Z)) :=
  match d with
  | EDef _ (DClass _ | DDefine) n _ _ | EFunc _ false n _ _ _ => Some (n, lower_case)
  | ETypeAlias _ n _ => Some (n, upper_case)
  | _ => None
  end.
Lemma named_fine s p e n ps : fine (checkNamedDefinition s p e n ps) -> name_path lower_case n.
Proof.
  unfold checkNamedDefinition. intros F. split_fine F. apply fine_app in F as [F _]. unfold isClassrefDecl in F. destruct (segments isLowercaseLetter true n) eqn:E; [|exfalso; no F].
  apply segments_path with (p := isLowercaseLetter); [|exact E]. unfold isLowercaseLetter, in_range, lower_case. cbn [fst snd]. intros c. lia.
Qed.
Lemma definition_names k text s e anc d n first : passes k text s e -> node_at e anc d -> named d = Some (n, first) -> name_path first n.
Proof.
  intros H Hn Hd. assert (F := node_basic H Hn). destruct d; try discriminate Hd; specialize (F ltac:(intros; discriminate)); cbn [check_basic] in F.
  - destruct k0; try discriminate Hd; injection Hd as <- <-; apply fine_app in F as [F _]; exact (named_fine F).
  - destruct plan; [discriminate|]. injection Hd as <- <-. apply fine_app in F as [F _]. exact (named_fine F).
  - injection Hd as <- <-. split_fine F. apply fine_app in F as [F _]. unfold isClassrefExtDecl in F. destruct (segments isUppercaseLetter true name) eqn:E; [|exfalso; no F].
    apply segments_path with (p := isUppercaseLetter); [|exact E]. unfold isUppercaseLetter, in_range, upper_case. cbn [fst snd]. intros c. lia.
Qed.

(** ** Values *)
Lemma rvalue_fine s x : fine (checkRValue s x) -> ~ valueless x.
Proof. intros H V. induction V; cbn [checkRValue isDefinition] in H; try no H. auto. Qed.
Lemma values_have_values k text s e anc d x : passes k text s e -> node_at e anc d -> needs_value d x -> ~ valueless x.
Proof.
  intros H Hn Hx. assert (F := node_basic H Hn). destruct d; try contradiction; specialize (F ltac:(intros; discriminate)); cbn [check_basic] in F; cbn [needs_value] in Hx.
  - destruct k0; try contradiction; apply fine_app in F as [F1 F2]; (destruct Hx as [-> | ->]; [exact (rvalue_fine F1)|exact (rvalue_fine F2)]).
  - subst x. exact (rvalue_fine F).
  - subst x. unfold checkAttributesOperation in F. split_fine F. exact (rvalue_fine F).
  - subst x. apply fine_app in F as [F _]. exact (rvalue_fine F).
  - exact (rvalue_fine (fine_concat F (in_map _ _ _ Hx))).
  - subst x. exact (rvalue_fine F).
  - apply fine_app in F as [F1 F2]; (destruct Hx as [-> | ->]; [exact (rvalue_fine F1)|exact (rvalue_fine F2)]).
  - exact (rvalue_fine (fine_concat F (in_map _ _ _ Hx))).
  - subst x. exact (rvalue_fine F).
  - subst x. apply fine_app in F as [F _]. exact (rvalue_fine F).
Qed.

(** ** Assignments in parameter defaults, queries, resources, reserved words *)
Lemma illegal_fine s : forall n e, (height e <= n)%nat -> fine (illegalAssignment s n e) -> forall x, inside e x -> forall q op l r, x <> EBin q KAssignment op l r.
Proof.
  induction n as [|n IH]; intros e Hh H x Hi q op l r.
  { destruct e; cbn [height] in Hh; lia. }
  cbn [illegalAssignment] in H. inversion Hi as [y|y z w Hl Hp Hz]; subst.
  - intros ->. no H.
  - assert (G : fine (chk_concat (map (illegalAssignment s n) (children e)))).
    { destruct e; try exact H; [destruct k; try exact H; exfalso; no H|exfalso; eapply Hl; reflexivity]. }
    rewrite parts_children in Hp. apply (IH z).
    + apply child_height in Hp. lia.
    + exact (fine_concat G (in_map _ _ _ Hp)).
    + exact Hz.
Qed.
Lemma defaults_do_not_assign k text s e anc q n v t r x : passes k text s e -> node_at e anc (EParam q n (Some v) t r) -> inside v x -> forall p op a b, x <> EBin p KAssignment op a b.
Proof. intros H Hn Hi. assert (F := node_basic H Hn ltac:(intros; discriminate)). cbn [check_basic] in F. unfold checkParameter in F. split_fine F. unfold checkIllegalAssignment in F. exact (illegal_fine (le_n _) F Hi). Qed.
Lemma query_fine s x : fine (checkQuery s x) -> query x.
Proof.
  induction x as [x IH] using expr_children_ind. intros H. destruct x; cbn [checkQuery] in H; try (exfalso; no H); try constructor.
  - destruct k; try (exfalso; no H).
    + apply fine_app in H as [H1 H2]. constructor; apply IH; cbn [children]; auto with datatypes.
    + apply fine_app in H as [H1 H2]. constructor; apply IH; cbn [children]; auto with datatypes.
    + destruct (str_eqb op (lit "==")) eqn:E1; [apply str_eqb_eq in E1 as ->; constructor|]. destruct (str_eqb op (lit "!=")) eqn:E2; [apply str_eqb_eq in E2 as ->; constructor|]. exfalso; no H.
  - destruct k; try (exfalso; no H); constructor. apply IH; [cbn [children]; auto with datatypes|exact H].
Qed.
Lemma queries k text s e anc q b x : passes k text s e -> node_at e anc (EQuery q b x) -> query x.
Proof. intros H Hn. exact (query_fine (node_basic H Hn ltac:(intros; discriminate))). Qed.
Lemma body_fine s : forall os seen, fine (checkResourceBody s seen os) -> ((if seen then 1 else 0) + unfold_count os <= 1)%nat.
Proof.
  induction os as [|x os IH]; intros seen H; [destruct seen; cbn; lia|].
  assert (D : unfold_count (x :: os) = ((match x with EAttrsOp _ _ => 1 | _ => 0 end) + unfold_count os)%nat) by (unfold unfold_count; cbn [filter]; destruct x; reflexivity). rewrite D.
  cbn [checkResourceBody] in H. destruct x; try (specialize (IH _ H); lia). apply fine_app in H as [H1 H2]. specialize (IH _ H2). destruct seen; [exfalso; no H1|]; cbv iota in *; lia.
Qed.
Lemma one_unfolding k text s e anc q t os : passes k text s e -> node_at e anc (EResBody q t os) -> (unfold_count os <= 1)%nat.
Proof. intros H Hn. exact (body_fine (node_basic H Hn ltac:(intros; discriminate))). Qed.
Lemma no_reserved_word k text s e anc q w : passes k text s e -> ~ node_at e anc (EReserved q w false).
Proof. intros H Hn. pose proof (node_basic H Hn ltac:(intros; discriminate)) as F. no F. Qed.
Lemma not_virtual k text s e anc d f : passes k text s e -> node_at e anc d ->
  (exists q t os, d = EResDefaults q f t os) \/ (exists q r os, d = EResOverride q f r os) \/ (exists q q' bs, d = EResource q f (EQName q' (lit "class")) bs) -> f = Regular.
Proof.
  intros H Hn Hd. assert (F := node_basic H Hn). destruct Hd as [(q & t & os & ->)|[(q & r & os & ->)|(q & q' & bs & ->)]]; specialize (F ltac:(intros; discriminate)); cbn [check_basic] in F; destruct f; try reflexivity; exfalso; no F.
Qed.
Lemma appends k text s e anc q n v : passes k text s e -> node_at e anc (EAttrOp q (lit "+>") n v) ->
  exists c up, anc = c :: up /\ ((exists p t x os, c = ECollect p t x os) \/ exists p f r os, c = EResOverride p f r os).
Proof.
  intros H Hn. assert (F := node_basic H Hn ltac:(intros; discriminate)). cbn [check_basic] in F. unfold checkAttributeOperation, container in F. replace (str_eqb (lit "+>") (lit "+>")) with true in F by reflexivity.
  destruct anc as [|c up]; cbn [hd_error] in F; [exfalso; no F|]. exists c, up. split; [reflexivity|]. destruct c; try (exfalso; no F); [left|right]; repeat eexists.
Qed.
Lemma hostnames k text s e anc q p hs b q' h : passes k text s e -> node_at e anc (ENode q p hs b) -> In (EString q' h) hs ->
  Forall (fun c => word_char c \/ c = "-"%ch \/ c = "."%ch) h.
Proof.
  intros H Hn Hi. assert (F := node_basic H Hn ltac:(intros; discriminate)). cbn [check_basic] in F. apply fine_app in F as [F _]. unfold checkHostname in F.
  assert (G := fine_concat F (in_map _ _ _ Hi)). cbv beta iota in G. unfold checkHostnameString in G. destruct (hasIllegalHostnameChars h) eqn:E; [exfalso; no G|]. clear - E. unfold hasIllegalHostnameChars in E.
  induction h as [|c h IH]; [constructor|]. cbn [existsb] in E. apply Bool.orb_false_iff in E as [E1 E2]. constructor; [|auto]. destruct (isWord c) eqn:Ew; [left; now apply word_ok|right]. lia.
Qed.
