(** * ValidateProof: proofs of C33-C39, C46 *)
From Verif Require Import Base Float Tokens Ast Pn ToPN Ctx Locator Literal Visit Validator SpecVisit VisitProof
  SpecLiteral LiteralProof SpecValidate.

(** ** C34: strictness *)
Definition dem (s : strictness) : chk -> chk := chk_map (seen_with s).
Lemma dem_none s : dem s none = none. Proof. reflexivity. Qed.
Lemma dem_app s a b : dem s (a +++ b) = dem s a +++ dem s b.
Proof.
  destruct a as [l|p], b as [l'|p']; try reflexivity. cbn.
  unfold seen_with. now rewrite flat_map_app.
Qed.
Lemma dem_accept s c e a : accept s c e a = dem s (accept StrictError c e a).
Proof. destruct s, c; reflexivity. Qed.
Lemma dem_panic s p : dem s (inr p) = inr p. Proof. reflexivity. Qed.
Lemma dem_concat s A (f g : A -> chk) l :
  (forall x, In x l -> f x = dem s (g x)) -> chk_concat (map f l) = dem s (chk_concat (map g l)).
Proof.
  intros H. induction l as [|x l IH]; [reflexivity|]. cbn [map chk_concat fold_right].
  unfold chk_concat in IH. rewrite (H x (or_introl eq_refl)), IH by (intros y Hy; apply H; now right).
  symmetry. apply dem_app.
Qed.

Ltac dm := repeat (match goal with
  | |- accept _ _ _ _ = dem _ (accept _ _ _ _) => apply dem_accept
  | |- none = dem _ none => reflexivity
  | |- inr _ = dem _ (inr _) => reflexivity
  | |- _ +++ _ = dem _ (_ +++ _) => rewrite dem_app; f_equal
  | H : forall _, _ = dem _ _ |- _ => apply H
  | |- (match ?x with _ => _ end) = dem _ (match ?x with _ => _ end) => destruct x
  end).

Section Dem.
Variable text : str.
Variable s : strictness.
Variable p : path.

Lemma dem_checkAssign e : checkAssign s e = dem s (checkAssign StrictError e).
Proof.
  induction e as [e IH] using expr_children_ind. destruct e; cbn [checkAssign]; dm.
  apply dem_concat. intros x Hx. apply IH. exact Hx.
Qed.
Lemma dem_checkCaptureLast ps : checkCaptureLast s ps = dem s (checkCaptureLast StrictError ps).
Proof.
  induction ps as [|q ps IH]; [reflexivity|]. destruct ps as [|q' ps]; [reflexivity|].
  change (checkCaptureLast ?x (q :: q' :: ps)) with
    ((match q with
     | EParam _ n _ _ true => accept x CapturesRestNotLast q [("param"%string, AStr n)]
     | _ => none
     end) +++ checkCaptureLast x (q' :: ps)). rewrite dem_app, IH. f_equal. dm.
Qed.
Lemma dem_checkNoCapture c ps : checkNoCapture s c ps = dem s (checkNoCapture StrictError c ps).
Proof. apply dem_concat. intros x _. dm. Qed.
Lemma dem_checkFRW e w : checkFutureReservedWord s e w = dem s (checkFutureReservedWord StrictError e w).
Proof. unfold checkFutureReservedWord. dm. Qed.
Lemma dem_checkRTN e w : checkReservedTypeName s e w = dem s (checkReservedTypeName StrictError e w).
Proof. unfold checkReservedTypeName. dm. Qed.
Lemma dem_checkHostname hs : checkHostname s hs = dem s (checkHostname StrictError hs).
Proof. apply dem_concat. intros x _. unfold checkHostnameString. dm. Qed.
Lemma dem_illegalAssignment n : forall e, illegalAssignment s n e = dem s (illegalAssignment StrictError n e).
Proof.
  induction n as [|n IH]; intros e; [reflexivity|]. cbn [illegalAssignment].
  assert (chk_concat (map (illegalAssignment s n) (children e)) = dem s (chk_concat (map (illegalAssignment StrictError n) (children e))))
    by (apply dem_concat; intros; apply IH).
  destruct e; try assumption; dm; assumption.
Qed.
Lemma dem_checkNoIdemLast e b : checkNoIdemLast s e b = dem s (checkNoIdemLast StrictError e b).
Proof. unfold checkNoIdemLast. dm. Qed.
Lemma dem_checkUnique ps : forall seen, checkUnique s seen ps = dem s (checkUnique StrictError seen ps).
Proof. induction ps as [|q ps IH]; intros seen; [reflexivity|]. cbn [checkUnique]. dm. Qed.
Lemma dem_checkQuery e : checkQuery s e = dem s (checkQuery StrictError e).
Proof.
  induction e as [e IH] using expr_children_ind. destruct e; cbn [checkQuery]; dm; apply IH; cbn; auto.
Qed.
Lemma dem_checkRValue e : checkRValue s e = dem s (checkRValue StrictError e).
Proof.
  induction e as [e IH] using expr_children_ind. destruct e; cbn [checkRValue]; dm; apply IH; cbn; auto.
Qed.
Lemma dem_checkRelation e : checkRelation s e = dem s (checkRelation StrictError e).
Proof. unfold checkRelation. dm; apply dem_checkRValue. Qed.
Lemma dem_checkReservedParams c ps : checkReservedParams s c ps = dem s (checkReservedParams StrictError c ps).
Proof. induction ps as [|q ps IH]; [reflexivity|]. cbn [checkReservedParams]. dm; assumption. Qed.
Lemma dem_checkTypeRef f r : checkTypeRef s f r = dem s (checkTypeRef StrictError f r).
Proof. unfold checkTypeRef. dm; apply dem_checkFRW. Qed.
Lemma dem_checkReturnType f r : checkReturnType s f r = dem s (checkReturnType StrictError f r).
Proof. unfold checkReturnType. dm; apply dem_checkTypeRef. Qed.
Lemma dem_checkTop e up : checkTop s e up = dem s (checkTop StrictError e up).
Proof. induction up as [|c up IH]; [reflexivity|]. cbn [checkTop]. dm; assumption. Qed.
Lemma dem_checkNamedDefinition e n ps : checkNamedDefinition s p e n ps = dem s (checkNamedDefinition StrictError p e n ps).
Proof.
  unfold checkNamedDefinition. rewrite !dem_app.
  rewrite dem_checkTop, dem_checkRTN, dem_checkFRW. unfold checkParameterNameUniqueness. rewrite dem_checkUnique.
  do 2 f_equal. dm.
Qed.
Lemma dem_checkBlock ss : checkBlock s ss = dem s (checkBlock StrictError ss).
Proof.
  induction ss as [|x ss IH]; [reflexivity|]. destruct ss as [|y ss]; [reflexivity|].
  change (checkBlock ?t (x :: y :: ss)) with
   (if isIdem x then accept t IdemExpressionNotLast x [("expression"%string, AExpr (Some x))] else checkBlock t (y :: ss)).
  dm. assumption.
Qed.
Lemma dem_dup_defaults c vs : forall seen,
  fst (dup_defaults s c seen vs) = dem s (fst (dup_defaults StrictError c seen vs))
  /\ snd (dup_defaults s c seen vs) = snd (dup_defaults StrictError c seen vs).
Proof.
  induction vs as [|v vs IH]; intros seen; [split; reflexivity|]. cbn [dup_defaults].
  destruct (isDefault v); [|apply IH].
  destruct (IH true) as [H1 H2].
  destruct (dup_defaults s c true vs), (dup_defaults StrictError c true vs). cbn [fst snd] in *.
  split; [|assumption]. rewrite dem_app, H1. f_equal. dm.
Qed.
Lemma dem_case_defaults c os : forall seen, case_defaults s c seen os = dem s (case_defaults StrictError c seen os).
Proof.
  induction os as [|o os IH]; intros seen; [reflexivity|]. cbn [case_defaults].
  destruct o; try reflexivity.
  destruct (dem_dup_defaults c values seen) as [H1 H2].
  destruct (dup_defaults s c seen values), (dup_defaults StrictError c seen values). cbn [fst snd] in *. subst.
  rewrite dem_app. f_equal. apply IH.
Qed.
Lemma dem_checkKeys es : forall seen, checkKeys text s seen es = dem s (checkKeys text StrictError seen es).
Proof. induction es as [|e es IH]; intros seen; [reflexivity|]. cbn [checkKeys]. dm. Qed.
Lemma dem_checkResourceBody ops : forall seen, checkResourceBody s seen ops = dem s (checkResourceBody StrictError seen ops).
Proof. induction ops as [|e es IH]; intros seen; [reflexivity|]. cbn [checkResourceBody]. dm. Qed.
Lemma dem_sel_defaults c ss : forall seen, sel_defaults s c seen ss = dem s (sel_defaults StrictError c seen ss).
Proof. induction ss as [|e es IH]; intros seen; [reflexivity|]. cbn [sel_defaults]. dm. Qed.
Lemma dem_checkTypeMapping e t m : checkTypeMapping s p e t m = dem s (checkTypeMapping StrictError p e t m).
Proof. unfold checkTypeMapping. rewrite dem_app, dem_checkTop. f_equal. dm. Qed.
Lemma dem_checkRValues vs : chk_concat (map (checkRValue s) vs) = dem s (chk_concat (map (checkRValue StrictError) vs)).
Proof. apply dem_concat. intros; apply dem_checkRValue. Qed.

Lemma dem_check_basic e : check_basic text s p e = dem s (check_basic text StrictError p e).
Proof.
  destruct e; cbn [check_basic];
  unfold checkAttributeOperation, checkAttributesOperation, checkCallNamed, checkCapabilityMapping,
    checkCollect, checkEpp, checkNamedAccess, checkParameter, checkIllegalAssignment, checkParameterNameUniqueness;
  repeat (dm; first [ apply dem_checkRValue | apply dem_checkAssign | apply dem_checkBlock | apply dem_case_defaults
    | apply dem_checkRValues | apply dem_checkNoCapture | apply dem_checkUnique | apply dem_checkNamedDefinition
    | apply dem_checkCaptureLast | apply dem_checkReturnType | apply dem_checkReservedParams | apply dem_checkNoIdemLast
    | apply dem_checkKeys | apply dem_checkHostname | apply dem_checkTop | apply dem_illegalAssignment
    | apply dem_checkRelation | apply dem_checkResourceBody | apply dem_sel_defaults | apply dem_checkRTN
    | apply dem_checkTypeRef | apply dem_checkTypeMapping | apply dem_checkQuery | idtac ]).
Qed.
Lemma dem_check k e : check text s p k e = dem s (check text StrictError p k e).
Proof. unfold check. destruct k; try apply dem_check_basic; destruct e; dm; apply dem_check_basic. Qed.
End Dem.

Theorem strictness_demotes k text s e :
  validate k text s e = chk_map (seen_with s) (validate k text StrictError e).
Proof.
  unfold validate. change (chk_map (seen_with s)) with (dem s).
  rewrite dem_app, <- dem_check. f_equal. apply dem_concat. intros v _. apply dem_check.
Qed.

(** ** C33 *)
Lemma chk_app_inl a b l : a +++ b = inl l -> exists l1 l2, a = inl l1 /\ b = inl l2 /\ l = l1 ++ l2.
Proof. destruct a, b; cbn; try discriminate. intros E; injection E as <-. eauto. Qed.
Lemma chk_concat_inl cs l : chk_concat cs = inl l -> exists ls, Forall2 (fun c l' => c = inl l') cs ls /\ l = List.concat ls.
Proof.
  revert l. induction cs as [|c cs IH]; intros l H.
  - injection H as <-. exists []. split; [constructor|reflexivity].
  - apply chk_app_inl in H. destruct H as (l1 & l2 & -> & H2 & ->).
    destruct (IH l2 H2) as (ls & HF & ->). exists (l1 :: ls). split; [constructor; auto|reflexivity].
Qed.
Lemma chk_concat_inr cs p : chk_concat cs = inr p -> In (inr p) cs.
Proof.
  induction cs as [|c cs IH]; [discriminate|]. cbn [chk_concat fold_right]. fold (chk_concat cs).
  destruct c as [l|q]; cbn.
  - destruct (chk_concat cs) eqn:E; [discriminate|]. intros H; injection H as ->. right. auto.
  - intros H; injection H as ->. now left.
Qed.
Lemma chk_concat_panics cs p : In (inr p) cs -> exists q, chk_concat cs = inr q.
Proof.
  induction cs as [|c cs IH]; [intros []|]. intros [->|H]; cbn [chk_concat fold_right]; [cbn; eauto|].
  destruct (IH H) as (q & Hq). fold (chk_concat cs). rewrite Hq. destruct c; cbn; eauto.
Qed.

Lemma Forall2_compose A B C (R : A -> B -> Prop) (S : B -> C -> Prop) l1 l2 l3 :
  Forall2 R l1 l2 -> Forall2 S l2 l3 -> Forall2 (fun a c => exists b, R a b /\ S b c) l1 l3.
Proof.
  intros H. revert l3. induction H as [|a b l1 l2 Hab H IH]; intros l3 H3; inversion H3; subst; constructor; eauto.
Qed.
Lemma Forall2_map_l A B C (f : A -> B) (R : B -> C -> Prop) l1 l2 :
  Forall2 R (map f l1) l2 -> Forall2 (fun a c => R (f a) c) l1 l2.
Proof. revert l2. induction l1; intros l2 H; inversion H; subst; constructor; auto. Qed.

From Coq Require Import Sorting.Sorted.
Theorem validate_sum k text s e l : validate k text s e = inl l ->
  exists l0 positions ls,
    check text s [] k e = inl l0
    /\ StronglySorted before positions
    /\ (forall a anc d, below e a anc d -> In a positions)
    /\ Forall2 (fun a l' => exists anc d, below e a anc d /\ check text s anc k d = inl l') positions ls
    /\ l = l0 ++ List.concat ls.
Proof.
  intros H. apply chk_app_inl in H. destruct H as (l0 & l1 & H0 & H1 & ->).
  apply chk_concat_inl in H1. destruct H1 as (ls & HF & ->). apply Forall2_map_l in HF.
  destruct (visit_correct [] e) as (positions & HS & HC & HV).
  exists l0, positions, ls. repeat split; auto.
  pose proof (Forall2_compose HV HF) as HX.
  clear -HX. induction HX as [|a l' la ll (v & (anc & Hb & Hv) & Hc) HX IH]; constructor; [|exact IH].
  exists anc, (snd v). rewrite app_nil_r in Hv. destruct v as [q d]. cbn [fst snd] in *. subst q. auto.
Qed.

Lemma below_fun e a anc d : below e a anc d -> forall anc' d', below e a anc' d' -> anc = anc' /\ d = d'.
Proof.
  intros H. induction H as [e i c Hc|e i c a anc d Hc HB IH]; intros anc' d' H'.
  - inversion H' as [? ? ? Hc'|? ? ? ? ? ? Hc' HB']; subst; [split; congruence|]. inversion HB'.
  - inversion H' as [? ? ? Hc'|? ? ? ? ? ? Hc' HB']; subst; [inversion HB|].
    assert (c = c0) by congruence. subst. destruct (IH _ _ HB') as [-> ->]. auto.
Qed.
Lemma Forall2_In_r A B (R : A -> B -> Prop) l1 l2 y : Forall2 R l1 l2 -> In y l2 -> exists x, In x l1 /\ R x y.
Proof.
  intros H. induction H as [|a b l1 l2 Hab H IH]; [intros []|]. intros [<-|Hy]; [exists a; split; [now left|exact Hab]|].
  destruct (IH Hy) as (x & Hx & HR). exists x. split; [now right|exact HR].
Qed.
Lemma Forall2_In_l A B (R : A -> B -> Prop) l1 l2 x : Forall2 R l1 l2 -> In x l1 -> exists y, In y l2 /\ R x y.
Proof.
  intros H. induction H as [|a b l1 l2 Hab H IH]; [intros []|]. intros [<-|Hy]; [exists b; split; [now left|exact Hab]|].
  destruct (IH Hy) as (y & Hx & HR). exists y. split; [now right|exact HR].
Qed.
Lemma visit_node e q d : In (q, d) (allContents [] e) <-> exists a, below e a q d.
Proof.
  destruct (visit_correct [] e) as (positions & HS & HC & HV). split.
  - intros H. destruct (Forall2_In_r HV H) as (a & _ & anc & Hb & Hv). rewrite app_nil_r in Hv. cbn in *. subst. eauto.
  - intros (a & Hb). destruct (Forall2_In_l HV (HC _ _ _ Hb)) as ([q' d'] & Hin & anc & Hb' & Hv).
    rewrite app_nil_r in Hv. cbn in *. subst. destruct (below_fun Hb Hb') as [-> ->]. exact Hin.
Qed.

(** validation is made of the checks of the nodes *)
Lemma validate_nodes k text s e : validate k text s e =
  chk_concat (map (fun v => check text s (fst v) k (snd v)) (([], e) :: allContents [] e)).
Proof. reflexivity. Qed.
Lemma node_visit e anc d : node_at e anc d <-> In (anc, d) (([], e) :: allContents [] e).
Proof.
  unfold node_at. cbn [In]. rewrite visit_node. split.
  - intros [[-> ->]|H]; [now left|now right].
  - intros [E|H]; [injection E as <- <-; auto|auto].
Qed.
Lemma validate_node k text s e l anc d : validate k text s e = inl l -> node_at e anc d ->
  exists l', check text s anc k d = inl l' /\ incl l' l.
Proof.
  rewrite validate_nodes. intros H Hn. apply node_visit in Hn.
  apply chk_concat_inl in H. destruct H as (ls & HF & ->). apply Forall2_map_l in HF.
  destruct (Forall2_In_l HF Hn) as (l' & Hin & Hc). exists l'. split; [exact Hc|].
  intros i Hi. apply in_concat. eauto.
Qed.
Lemma validate_from k text s e l i : validate k text s e = inl l -> In i l ->
  exists anc d l', node_at e anc d /\ check text s anc k d = inl l' /\ In i l'.
Proof.
  rewrite validate_nodes. intros H Hi.
  apply chk_concat_inl in H. destruct H as (ls & HF & ->). apply Forall2_map_l in HF.
  apply in_concat in Hi. destruct Hi as (l' & Hl & Hi).
  destruct (Forall2_In_r HF Hl) as ([anc d] & Hin & Hc). exists anc, d, l'. rewrite node_visit. auto.
Qed.
Theorem validate_panics k text s e :
  (exists q, validate k text s e = inr q) <-> (exists anc d q, node_at e anc d /\ check text s anc k d = inr q).
Proof.
  rewrite validate_nodes. split.
  - intros (q & H). apply chk_concat_inr in H. apply in_map_iff in H. destruct H as ([anc d] & Hc & Hin).
    exists anc, d, q. rewrite node_visit. auto.
  - intros (anc & d & q & Hn & Hc). apply node_visit in Hn.
    apply chk_concat_panics with q. apply in_map_iff. exists (anc, d). auto.
Qed.

(** locality *)
Lemma sum_app a b a' b' : summaries a = summaries a' -> summaries b = summaries b' -> summaries (a +++ b) = summaries (a' +++ b').
Proof.
  destruct a as [a|], b as [b|], a' as [a'|], b' as [b'|]; cbn; intros H1 H2; try congruence.
  injection H1 as H1. injection H2 as H2. now rewrite !map_app, H1, H2.
Qed.
Lemma sum_accept s c e a e' a' : epos e = epos e' -> summaries (accept s c e a) = summaries (accept s c e' a').
Proof. intros H. unfold accept. destruct (severity_of s c); cbn; unfold summary; cbn; now rewrite ?H. Qed.
Lemma epos_outline e : epos (outline e) = epos e.
Proof. destruct e; reflexivity. Qed.
Lemma outline_checkTop s e up : checkTop s e (map outline up) = checkTop s e up.
Proof.
  induction up as [|c up IH]; [reflexivity|]. cbn [map checkTop]. rewrite IH.
  destruct c; try reflexivity; cbn [outline].
  - destruct up as [|c' up]; [reflexivity|]. cbn [map]. now destruct c'.

Qed.
Lemma sum_noCapture s c c' ps : summaries (checkNoCapture s c ps) = summaries (checkNoCapture s c' ps).
Proof.
  unfold checkNoCapture. induction ps as [|q ps IH]; [reflexivity|]. cbn [map chk_concat fold_right].
  apply sum_app; [|exact IH]. destruct q; try reflexivity.
  match goal with |- context [match ?b with true => _ | false => _ end] => destruct b end; [now apply sum_accept|reflexivity].
Qed.
Theorem check_local k text s anc d :
  summaries (check text s (map outline anc) k d) = summaries (check text s anc k d).
Proof.
  assert (HB: summaries (check_basic text s (map outline anc) d) = summaries (check_basic text s anc d)).
  { destruct d; cbn [check_basic]; unfold checkNamedDefinition, checkTypeMapping; try (rewrite outline_checkTop; reflexivity);
      try reflexivity.
    - destruct k0; try reflexivity. unfold checkNamedAccess. destruct d2; try reflexivity; now apply sum_accept.
    - unfold checkAttributeOperation, container. destruct (str_eqb op (lit "+>")); [|reflexivity].
      destruct anc as [|c anc]; [reflexivity|]. cbn [map hd_error].
      destruct c; try reflexivity; now apply sum_accept.
    - unfold checkAttributesOperation, container. apply sum_app; [|reflexivity].
      destruct anc as [|c anc]; [reflexivity|]. cbn [map hd_error].
      destruct c; cbn [outline isAbstractResource orb]; try reflexivity; apply sum_accept; reflexivity.
    - unfold checkEpp, container. destruct anc as [|c anc]; [reflexivity|]. cbn [map hd_error].
      destruct c; cbn [outline]; try reflexivity.
      apply sum_app; [apply sum_noCapture|reflexivity].
    }
  unfold check. destruct k; [exact HB| |]; destruct d; try exact HB; try reflexivity;
    destruct (catalogOperation _); first [reflexivity|exact HB].
Qed.

(** ** C35 *)
Theorem severity_documented k text s e l i : validate k text s e = inl l -> In i l ->
  documented_severity s (i_code i) = Some (i_sev i).
Proof.
  rewrite strictness_demotes. destruct (validate k text StrictError e) as [l0|]; [|discriminate].
  cbn [chk_map]. intros H; injection H as <-. intros Hi. apply in_flat_map in Hi.
  destruct Hi as (j & _ & Hj). destruct (documented_severity s (i_code j)) eqn:E; [|destruct Hj].
  destruct Hj as [<-|[]]. exact E.
Qed.

(** ** C36 *)
Lemma hash_key_lit k v : denotes k v -> may_be_key v -> hash_key k = inl (Some v).
Proof.
  intros Hd Hm. unfold hash_key. rewrite (toLiteral_complete Hd).
  destruct Hd; cbn in Hm; try contradiction; try reflexivity; rewrite (proj2 (hashable_key _) Hm); reflexivity.
Qed.
Lemma accept_in s c e a : severity_of s c <> SevIgnore -> exists v, accept s c e a = inl [mkissue c v a e].
Proof. unfold accept. destruct (severity_of s c); intros H; [congruence|eauto..]. Qed.

Lemma checkKeys_complete text s es : s <> StrictOff -> forall seen l j q k v w,
  checkKeys text s seen es = inl l ->
  nth_error es j = Some (EKeyed q k v) -> hash_key k = inl (Some w) ->
  (existsb (lv_eqb w) seen = true
   \/ exists i q' k' v' w', (i < j)%nat /\ nth_error es i = Some (EKeyed q' k' v') /\ hash_key k' = inl (Some w')
                         /\ lv_eqb w' w = true) ->
  exists i, In i l /\ i_code i = DuplicateKey /\ i_at i = EKeyed q k v.
Proof.
  intros Hs. induction es as [|e es IH]; intros seen l j q k v w H Hj Hk Hd; [destruct j; discriminate|].
  cbn [checkKeys] in H. destruct e; try discriminate.
  destruct (hash_key e1) as [[w1|]|] eqn:E1; [|..|discriminate].
  - destruct (existsb (lv_eqb w1) seen) eqn:Ex.
    + destruct (node_text text (epos e1)) as [t|]; [|discriminate].
      destruct (@accept_in s DuplicateKey (EKeyed p e1 e2) [("key"%string, AStr t)]) as (sv & Ha);
        [destruct s; cbn; congruence|].
      rewrite Ha in H. apply chk_app_inl in H. destruct H as (l1 & l2 & HA & HB & ->).
      injection HA as <-.
      destruct j as [|j].
      * injection Hj as -> -> ->. eexists; split; [left; reflexivity|]. auto.
      * destruct (IH seen l2 j q k v w HB Hj Hk) as (i & Hi & Hc); [|exists i; split; [now right|exact Hc]].
        destruct Hd as [Hd|(i & q' & k' & v' & w' & Hi & Hn & Hk' & He)]; [now left|].
        destruct i as [|i].
        -- injection Hn as -> -> ->. left. assert (w' = w1) by congruence. subst w'.
           apply existsb_exists in Ex. destruct Ex as (x & Hx & Ee). apply existsb_exists. exists x. split; [exact Hx|].
           rewrite same_key_eqb in *. rewrite same_key_sym in He. eapply same_key_trans; eassumption.
        -- right. exists i, q', k', v', w'. repeat split; auto. lia.
    + destruct j as [|j].
      * injection Hj as -> -> ->. assert (w = w1) by congruence. subst w1.
        destruct Hd as [Hd|(i & ? & ? & ? & ? & Hi & _)]; [congruence|lia].
      * apply (IH (w1 :: seen) l j q k v w H Hj Hk).
        destruct Hd as [Hd|(i & q' & k' & v' & w' & Hi & Hn & Hk' & He)].
        -- left. cbn. rewrite Hd. apply Bool.orb_true_r.
        -- destruct i as [|i].
           ++ injection Hn as -> -> ->. assert (w' = w1) by congruence. subst w'. left. cbn.
              rewrite same_key_eqb, same_key_sym, <- same_key_eqb, He. reflexivity.
           ++ right. exists i, q', k', v', w'. repeat split; auto. lia.
  - destruct j as [|j]; [injection Hj as -> -> ->; congruence|].
    apply (IH seen l j q k v w H Hj Hk).
    destruct Hd as [Hd|(i & q' & k' & v' & w' & Hi & Hn & Hk' & He)]; [now left|].
    destruct i as [|i]; [injection Hn as -> -> ->; congruence|].
    right. exists i, q', k', v', w'. repeat split; auto. lia.
Qed.

Lemma not_catalog_hash k text s anc p es : check text s anc k (EHash p es) = checkKeys text s [] es.
Proof. now destruct k. Qed.

Theorem duplicate_keys_found k text s e l anc p es j x :
  s <> StrictOff -> validate k text s e = inl l -> node_at e anc (EHash p es) ->
  repeats_key es j -> nth_error es j = Some x ->
  exists i, In i l /\ i_code i = DuplicateKey /\ i_at i = x.
Proof.
  intros Hs H Hn (i & qi & ki & vi & qj & kj & vj & li & lj & Hij & Hi & Hj & Di & Dj & Hm & He) Hx.
  destruct (validate_node H Hn) as (l' & Hc & Hincl). rewrite not_catalog_hash in Hc.
  assert (x = EKeyed qj kj vj) by congruence. subst x.
  assert (Hmj: may_be_key lj).
  { destruct li, lj; cbn in *; try tauto; try discriminate; destruct f; discriminate. }
  destruct (@checkKeys_complete text s es Hs [] l' j qj kj vj lj Hc Hj (hash_key_lit Dj Hmj)) as (y & Hy & Hcode & Hat).
  - right. exists i, qi, ki, vi, li. repeat split; auto; [now apply hash_key_lit|now rewrite same_key_eqb].
  - exists y. auto.
Qed.

(** soundness: on a hash whose literal keys are no arrays or hashes *)
Lemma hash_key_some k w : hash_key k = inl (Some w) -> (forall u, denotes k u -> may_be_key u) -> denotes k w /\ may_be_key w.
Proof.
  unfold hash_key. destruct (toLiteral k) as [v| |] eqn:E; try discriminate. intros H Hm.
  apply toLiteral_sound in E. specialize (Hm _ E).
  rewrite (proj2 (hashable_key _) Hm) in H.
  destruct E; try contradiction; injection H as <-; split; (constructor || idtac); auto.
Qed.
Lemma checkKeys_sound text s es : simple_keys es -> forall seen l i, checkKeys text s seen es = inl l -> In i l ->
  i_code i = DuplicateKey /\
  exists j q k v w, nth_error es j = Some (EKeyed q k v) /\ i_at i = EKeyed q k v /\ denotes k w /\ may_be_key w /\
   (existsb (lv_eqb w) seen = true \/
    exists i' q' k' v' w', (i' < j)%nat /\ nth_error es i' = Some (EKeyed q' k' v') /\ denotes k' w' /\ may_be_key w' /\ lv_eqb w' w = true).
Proof.
  induction es as [|e es IH]; intros Hsk seen l i H Hi; [injection H as <-; destruct Hi|].
  assert (Hsk': simple_keys es) by (intros q k v Hin; apply (Hsk q k v); now right).
  cbn [checkKeys] in H. destruct e; try discriminate.
  assert (Hnth: forall sl, checkKeys text s sl es = inl l \/ (exists l', checkKeys text s sl es = inl l' /\ In i l') ->
    (forall w, existsb (lv_eqb w) sl = true -> may_be_key w -> existsb (lv_eqb w) seen = true \/ exists w1, denotes e1 w1 /\ may_be_key w1 /\ lv_eqb w1 w = true) ->
    i_code i = DuplicateKey /\
    exists j q k v w, nth_error (EKeyed p e1 e2 :: es) j = Some (EKeyed q k v) /\ i_at i = EKeyed q k v /\ denotes k w /\ may_be_key w /\
   (existsb (lv_eqb w) seen = true \/
    exists i' q' k' v' w', (i' < j)%nat /\ nth_error (EKeyed p e1 e2 :: es) i' = Some (EKeyed q' k' v') /\ denotes k' w' /\ may_be_key w' /\ lv_eqb w' w = true)).
  { intros sl Hl Hsl.
    assert (exists l', checkKeys text s sl es = inl l' /\ In i l') as (l' & Hl1 & Hl2) by (destruct Hl as [?|?]; eauto).
    destruct (IH Hsk' sl l' i Hl1 Hl2) as (Hc & j & q & k & v & w & Hj & Ha & Hd & Hm & Hor).
    split; [exact Hc|]. exists (S j), q, k, v, w. repeat split; auto.
    destruct Hor as [Hor|(i' & q' & k' & v' & w' & Hlt & Hn' & Hd' & Hm' & He)].
    - destruct (Hsl w Hor Hm) as [?|(w1 & D1 & M1 & E1)]; [now left|]. right. exists O, p, e1, e2, w1. repeat split; auto. lia.
    - right. exists (S i'), q', k', v', w'. repeat split; auto. lia. }
  destruct (hash_key e1) as [[w1|]|] eqn:E1; [|..|discriminate].
  - destruct (hash_key_some E1) as [D1 M1]; [apply (Hsk p e1 e2); now left|].
    destruct (existsb (lv_eqb w1) seen) eqn:Ex.
    + destruct (node_text text (epos e1)) as [t|]; [|discriminate].
      apply chk_app_inl in H. destruct H as (l1 & l2 & HA & HB & ->). apply in_app_or in Hi. destruct Hi as [Hi|Hi].
      * assert (Hi': i_code i = DuplicateKey /\ i_at i = EKeyed p e1 e2).
        { unfold accept in HA. destruct (severity_of s DuplicateKey); injection HA as <-; cbn in Hi; intuition (subst; auto). }
        destruct Hi' as [Hc Ha]. split; [exact Hc|]. exists O, p, e1, e2, w1. repeat split; auto.
      * apply (Hnth seen); [right; eauto|]. intros w Hw _. now left.
    + apply (Hnth (w1 :: seen)); [left; exact H|]. intros w Hw Hmw. cbn in Hw. apply Bool.orb_true_iff in Hw.
      destruct Hw as [Hw|Hw]; [|now left]. right. exists w1. repeat split; auto.
      rewrite same_key_eqb, same_key_sym, <- same_key_eqb. exact Hw.
  - apply (Hnth seen); [left; exact H|]. intros w Hw _. now left.
Qed.
Theorem duplicate_keys_real k text s anc p es l i :
  simple_keys es -> check text s anc k (EHash p es) = inl l -> In i l ->
  i_code i = DuplicateKey /\ exists j, repeats_key es j /\ nth_error es j = Some (i_at i).
Proof.
  intros Hsk H Hi. rewrite not_catalog_hash in H.
  destruct (checkKeys_sound Hsk H Hi) as (Hc & j & q & k' & v & w & Hj & Ha & Hd & Hm & [Hor|Hor]); [discriminate|].
  split; [exact Hc|]. exists j. rewrite Ha. split; [|exact Hj].
  destruct Hor as (i' & q' & k2 & v' & w' & Hlt & Hn' & Hd' & Hm' & He).
  exists i', q', k2, v', q, k', v, w', w. repeat split; auto. now rewrite <- same_key_eqb.
Qed.

(** ** C37 *)
Lemma checkUnique_complete s ps : forall seen l j q n v t r,
  checkUnique s seen ps = inl l -> nth_error ps j = Some (EParam q n v t r) ->
  (In n seen \/ exists i, (i < j)%nat /\ option_map param_name (nth_error ps i) = Some (Some n)) ->
  exists i, In i l /\ i_code i = DuplicateParameter /\ i_at i = EParam q n v t r.
Proof.
  induction ps as [|e ps IH]; intros seen l j q n v t r H Hj Hd; [destruct j; discriminate|].
  cbn [checkUnique] in H. destruct e; try discriminate.
  destruct (mem_str name seen) eqn:Em.
  - apply chk_app_inl in H. destruct H as (l1 & l2 & HA & HB & ->).
    injection HA as <-.
    destruct j as [|j].
    + injection Hj as -> -> -> -> ->. eexists. split; [left; reflexivity|]. auto.
    + destruct (IH seen l2 j q n v t r HB Hj) as (i & Hi & Hc); [|exists i; split; [now right|exact Hc]].
      destruct Hd as [Hd|(i & Hi & Hn)]; [now left|].
      destruct i as [|i]; [|right; exists i; split; [lia|exact Hn]].
      cbn in Hn. injection Hn as ->. left. now apply mem_str_In.
  - destruct j as [|j].
    + injection Hj as -> -> -> -> ->. destruct Hd as [Hd|(i & Hi & _)]; [|lia].
      apply mem_str_In in Hd. congruence.
    + apply (IH (name :: seen) l j q n v t r H Hj).
      destruct Hd as [Hd|(i & Hi & Hn)]; [left; now right|].
      destruct i as [|i]; [|right; exists i; split; [lia|exact Hn]].
      cbn in Hn. injection Hn as ->. left. now left.
Qed.
Lemma checkUnique_sound s ps : forall seen l i,
  checkUnique s seen ps = inl l -> In i l ->
  i_code i = DuplicateParameter /\
  exists j n, nth_error ps j = Some (i_at i) /\ param_name (i_at i) = Some n /\
    (In n seen \/ exists i', (i' < j)%nat /\ option_map param_name (nth_error ps i') = Some (Some n)).
Proof.
  induction ps as [|e ps IH]; intros seen l i H Hi; [injection H as <-; destruct Hi|].
  cbn [checkUnique] in H. destruct e; try discriminate.
  assert (Hrec: forall sl l', checkUnique s sl ps = inl l' -> In i l' -> (forall n, In n sl -> In n seen \/ n = name) ->
     i_code i = DuplicateParameter /\
     exists j n, nth_error (EParam p name value typ rest :: ps) j = Some (i_at i) /\ param_name (i_at i) = Some n /\
    (In n seen \/ exists i', (i' < j)%nat /\ option_map param_name (nth_error (EParam p name value typ rest :: ps) i') = Some (Some n))).
  { intros sl l' H1 H2 Hsl. destruct (IH sl l' i H1 H2) as (Hc & j & n & Hj & Hp & Hor). split; [exact Hc|].
    exists (S j), n. repeat split; auto. destruct Hor as [Hor|(i' & Hlt & Hn)].
    - destruct (Hsl n Hor) as [?| ->]; [now left|]. right. exists O. split; [lia|reflexivity].
    - right. exists (S i'). split; [lia|exact Hn]. }
  destruct (mem_str name seen) eqn:Em.
  - apply chk_app_inl in H. destruct H as (l1 & l2 & HA & HB & ->). injection HA as <-.
    destruct Hi as [<-|Hi].
    + split; [reflexivity|]. exists O, name. repeat split; auto. left. now apply mem_str_In.
    + apply (Hrec seen l2); auto.
  - apply (Hrec (name :: seen) l); auto. intros n [->|Hn]; auto.
Qed.

Lemma checked_params_part k text s anc d ps l : checked_params k anc d = Some ps -> check text s anc k d = inl l ->
  exists l', checkUnique s [] ps = inl l' /\ incl l' l.
Proof.
  intros Hp Hc.
  assert (HB: check_basic text s anc d = inl l).
  { destruct d; try discriminate; destruct k; cbn in Hp, Hc; try exact Hc; try discriminate;
    try (match type of Hc with check_basic _ _ _ _ = _ => exact Hc end);
    match goal with kk : dkind |- _ => destruct kk; discriminate end. }
  clear Hc.
  assert (Hfin: forall a b l, a +++ b = inl l -> (exists l', checkUnique s [] ps = inl l' /\ (a = inl l' \/ b = inl l' \/ (exists m, a = inl m /\ incl l' m) \/ (exists m, b = inl m /\ incl l' m))) ->
      exists l', checkUnique s [] ps = inl l' /\ incl l' l).
  { intros a b l0 Hab (l' & Hu & Hor). apply chk_app_inl in Hab. destruct Hab as (l1 & l2 & -> & -> & ->).
    exists l'. split; [exact Hu|].
    destruct Hor as [E|[E|[(m & E & Hm)|(m & E & Hm)]]]; injection E as ->;
      first [apply incl_appl; (exact Hm || apply incl_refl) | apply incl_appr; (exact Hm || apply incl_refl)]. }
  assert (HND: forall e n l, checkNamedDefinition s anc e n ps = inl l -> exists l', checkUnique s [] ps = inl l' /\ incl l' l).
  { intros e n l0 H. unfold checkNamedDefinition, checkParameterNameUniqueness in H.
    repeat (match type of H with _ +++ _ = _ => apply chk_app_inl in H; let l1 := fresh "la" in let l2 := fresh "lb" in destruct H as (l1 & l2 & _ & H & ->) end).
    eexists. split; [exact H|]. repeat apply incl_appr. apply incl_refl. }
  destruct d; try discriminate; cbn [checked_params] in Hp; cbn [check_basic] in HB.
  - destruct anc as [|c anc]; [discriminate|]. destruct c; try discriminate. injection Hp as <-.
    unfold checkEpp, checkParameterNameUniqueness in HB. cbn [container hd_error] in HB.
    apply chk_app_inl in HB. destruct HB as (l1 & l2 & _ & HB & ->). exists l2. split; [exact HB|]. apply incl_appr, incl_refl.
  - destruct k0; try discriminate; destruct k; try discriminate; injection Hp as <-;
      apply chk_app_inl in HB; destruct HB as (l1 & l2 & HB & _ & ->);
      destruct (HND _ _ _ HB) as (l' & Hl & Hi); exists l'; (split; [exact Hl|now apply incl_appl]).
  - destruct plan; try discriminate; injection Hp as <-;
      apply chk_app_inl in HB; destruct HB as (l1 & l2 & HB & _ & ->);
      destruct (HND _ _ _ HB) as (l' & Hl & Hi); exists l'; (split; [exact Hl|now apply incl_appl]).
Qed.

Theorem duplicate_params_found k text s e l anc d ps j x :
  validate k text s e = inl l -> node_at e anc d -> checked_params k anc d = Some ps ->
  repeats_param ps j -> nth_error ps j = Some x ->
  exists i, In i l /\ i_code i = DuplicateParameter /\ i_at i = x.
Proof.
  intros H Hn Hp (i & n & Hij & Hi & Hj) Hx.
  destruct (validate_node H Hn) as (l' & Hc & Hincl).
  destruct (checked_params_part Hp Hc) as (l2 & Hu & Hincl2).
  rewrite Hx in Hj. destruct x; try discriminate. cbn in Hj. injection Hj as ->.
  destruct (@checkUnique_complete s ps [] l2 j p n value typ rest Hu Hx) as (y & Hy & Hcode & Hat).
  - right. eauto.
  - exists y. auto.
Qed.

(** ** C38 *)
Lemma in_ascii_lower c : isLowercaseLetter c = true <-> "a"%ch <= c <= "z"%ch.
Proof. unfold isLowercaseLetter, in_range. rewrite Bool.andb_true_iff, !Z.leb_le. reflexivity. Qed.
Lemma isParamName_simple n : isParamName n = true -> simple_name n.
Proof.
  destruct n as [|c r]; [discriminate|]. cbn [isParamName]. rewrite Bool.andb_true_iff, Bool.orb_true_iff.
  rewrite in_ascii_lower, Z.eqb_eq, forallb_forall. intros [Hc Hr]. exists c, r. repeat split; [exact Hc|].
  apply Forall_forall. intros x Hx. specialize (Hr x Hx). unfold isWord in Hr.
  rewrite !Bool.orb_true_iff, in_ascii_lower, Z.eqb_eq in Hr.
  unfold isUppercaseLetter, isDecimalDigit, in_range in Hr. rewrite !Bool.andb_true_iff, !Z.leb_le in Hr. tauto.
Qed.

Lemma simple_name_key n : simple_name n -> keyOk n = true.
Proof.
  intros (c & r & -> & Hc & Hr). cbn [keyOk]. unfold keyStart, isLetter.
  apply Bool.andb_true_iff. split.
  - rewrite !Bool.orb_true_iff, in_ascii_lower, !Z.eqb_eq. tauto.
  - apply forallb_forall. intros x Hx. rewrite Forall_forall in Hr. specialize (Hr x Hx).
    unfold keyChar, keyStart, isLetter. rewrite !Bool.orb_true_iff, in_ascii_lower, !Z.eqb_eq.
    unfold isUppercaseLetter, isDecimalDigit, in_range. rewrite !Bool.andb_true_iff, !Z.leb_le. tauto.
Qed.
Theorem accepted_param_simple k text s e l anc p n v t r :
  validate k text s e = inl l -> node_at e anc (EParam p n v t r) ->
  (forall i, In i l -> i_at i = EParam p n v t r -> i_code i <> IllegalParameterName /\ i_code i <> IllegalNumericParameter) ->
  simple_name n /\ keyOk n = true.
Proof.
  intros H Hn Hno. enough (simple_name n) by (split; [assumption|now apply simple_name_key]).
  destruct (validate_node H Hn) as (l' & Hc & Hincl).
  assert (HB: check_basic text s anc (EParam p n v t r) = inl l') by (now destruct k).
  cbn [check_basic] in HB. unfold checkParameter in HB.
  apply chk_app_inl in HB. destruct HB as (l1 & l2 & HA & _ & ->).
  destruct (startsWithNumber n).
  - injection HA as <-. edestruct (Hno (mkissue IllegalNumericParameter SevError [("name"%string, AStr n)] (EParam p n v t r)));
      [apply Hincl; now left|reflexivity|]. cbn in *. congruence.
  - destruct (isParamName n) eqn:E; [now apply isParamName_simple|].
    injection HA as <-. edestruct (Hno (mkissue IllegalParameterName SevError [("name"%string, AStr n)] (EParam p n v t r)));
      [apply Hincl; now left|reflexivity|]. cbn in *. congruence.
Qed.

(** ** C39 *)
(** the issues with a code for which [f] does not hold *)
Definition free (f : vcode -> bool) (c : chk) : Prop :=
  match c with inl l => Forall (fun i => f (i_code i) = true) l | inr _ => True end.
Lemma free_app f a b : free f a -> free f b -> free f (a +++ b).
Proof. destruct a, b; cbn; try tauto. intros. now apply Forall_app. Qed.
Lemma free_none f : free f none. Proof. constructor. Qed.
Lemma free_panic f p : free f (inr p). Proof. exact I. Qed.
Lemma free_accept f s c e a : f c = true -> free f (accept s c e a).
Proof. intros H. unfold accept. destruct (severity_of s c); repeat constructor; exact H. Qed.
Lemma free_concat f A (g : A -> chk) l : (forall x, In x l -> free f (g x)) -> free f (chk_concat (map g l)).
Proof.
  intros H. induction l as [|x l IH]; [constructor|]. cbn [map chk_concat fold_right].
  apply free_app; [apply H; now left|]. apply IH. intros y Hy. apply H. now right.
Qed.
Definition ordinary (c : vcode) : bool :=
  match c with CatalogOperationNotSupported | WorkflowOperationNotSupported => false | _ => true end.
Ltac fr := repeat (match goal with
  | |- free _ (accept _ _ _ _) => apply free_accept; reflexivity
  | |- free _ none => apply free_none
  | |- free _ (inr _) => apply free_panic
  | |- free _ (_ +++ _) => apply free_app
  | H : forall _, free _ _ |- _ => apply H
  | |- free _ (match ?x with _ => _ end) => destruct x
  end).
Section Free.
Variable text : str.
Variable s : strictness.
Variable p : path.
Local Notation fr x := (free ordinary x).
Lemma fr_checkAssign e : fr (checkAssign s e).
Proof.
  induction e as [e IH] using expr_children_ind. destruct e; cbn [checkAssign]; fr.
  apply free_concat. intros x Hx. apply IH. exact Hx.
Qed.
Lemma fr_checkCaptureLast ps : fr (checkCaptureLast s ps).
Proof.
  induction ps as [|q ps IH]; [apply free_none|]. destruct ps as [|q' ps]; [apply free_none|].
  change (checkCaptureLast ?x (q :: q' :: ps)) with
    ((match q with
     | EParam _ n _ _ true => accept x CapturesRestNotLast q [("param"%string, AStr n)]
     | _ => none
     end) +++ checkCaptureLast x (q' :: ps)). fr; assumption.
Qed.
Lemma fr_checkNoCapture c ps : fr (checkNoCapture s c ps).
Proof. apply free_concat. intros x _. fr. Qed.
Lemma fr_checkFRW e w : fr (checkFutureReservedWord s e w).
Proof. unfold checkFutureReservedWord. fr. Qed.
Lemma fr_checkRTN e w : fr (checkReservedTypeName s e w).
Proof. unfold checkReservedTypeName. fr. Qed.
Lemma fr_checkHostname hs : fr (checkHostname s hs).
Proof. apply free_concat. intros x _. unfold checkHostnameString. fr. Qed.
Lemma fr_illegalAssignment n : forall e, fr (illegalAssignment s n e).
Proof.
  induction n as [|n IH]; intros e; [apply free_none|]. cbn [illegalAssignment].
  assert (fr (chk_concat (map (illegalAssignment s n) (children e))))
    by (apply free_concat; intros; apply IH).
  destruct e; try assumption; fr; assumption.
Qed.
Lemma fr_checkNoIdemLast e b : fr (checkNoIdemLast s e b).
Proof. unfold checkNoIdemLast. fr. Qed.
Lemma fr_checkUnique ps : forall seen, fr (checkUnique s seen ps).
Proof. induction ps as [|q ps IH]; intros seen; [apply free_none|]. cbn [checkUnique]. fr. Qed.
Lemma fr_checkQuery e : fr (checkQuery s e).
Proof.
  induction e as [e IH] using expr_children_ind. destruct e; cbn [checkQuery]; fr; apply IH; cbn; auto.
Qed.
Lemma fr_checkRValue e : fr (checkRValue s e).
Proof.
  induction e as [e IH] using expr_children_ind. destruct e; cbn [checkRValue]; fr; apply IH; cbn; auto.
Qed.
Lemma fr_checkRelation e : fr (checkRelation s e).
Proof. unfold checkRelation. fr; apply fr_checkRValue. Qed.
Lemma fr_checkReservedParams c ps : fr (checkReservedParams s c ps).
Proof. induction ps as [|q ps IH]; [apply free_none|]. cbn [checkReservedParams]. fr; assumption. Qed.
Lemma fr_checkTypeRef f r : fr (checkTypeRef s f r).
Proof. unfold checkTypeRef. fr; apply fr_checkFRW. Qed.
Lemma fr_checkReturnType f r : fr (checkReturnType s f r).
Proof. unfold checkReturnType. fr; apply fr_checkTypeRef. Qed.
Lemma fr_checkTop e up : fr (checkTop s e up).
Proof. induction up as [|c up IH]; [apply free_none|]. cbn [checkTop]. fr; assumption. Qed.
Lemma fr_checkNamedDefinition e n ps : fr (checkNamedDefinition s p e n ps).
Proof.
  unfold checkNamedDefinition, checkParameterNameUniqueness.
  fr; auto using fr_checkTop, fr_checkRTN, fr_checkFRW, fr_checkUnique.
Qed.
Lemma fr_checkBlock ss : fr (checkBlock s ss).
Proof.
  induction ss as [|x ss IH]; [apply free_none|]. destruct ss as [|y ss]; [apply free_none|].
  change (checkBlock ?t (x :: y :: ss)) with
   (if isIdem x then accept t IdemExpressionNotLast x [("expression"%string, AExpr (Some x))] else checkBlock t (y :: ss)).
  fr. assumption.
Qed.
Lemma fr_dup_defaults c vs : forall seen, fr (fst (dup_defaults s c seen vs)).
Proof.
  induction vs as [|v vs IH]; intros seen; [apply free_none|]. cbn [dup_defaults].
  destruct (isDefault v); [|apply IH]. specialize (IH true).
  destruct (dup_defaults s c true vs). cbn [fst] in *. apply free_app; [fr|assumption].
Qed.
Lemma fr_case_defaults c os : forall seen, fr (case_defaults s c seen os).
Proof.
  induction os as [|o os IH]; intros seen; [apply free_none|]. cbn [case_defaults].
  destruct o; try apply free_panic.
  pose proof (fr_dup_defaults c values seen) as H.
  destruct (dup_defaults s c seen values). cbn [fst] in *. apply free_app; auto.
Qed.
Lemma fr_checkKeys es : forall seen, fr (checkKeys text s seen es).
Proof. induction es as [|e es IH]; intros seen; [apply free_none|]. cbn [checkKeys]. fr. Qed.
Lemma fr_checkResourceBody ops : forall seen, fr (checkResourceBody s seen ops).
Proof. induction ops as [|e es IH]; intros seen; [apply free_none|]. cbn [checkResourceBody]. fr. Qed.
Lemma fr_sel_defaults c ss : forall seen, fr (sel_defaults s c seen ss).
Proof. induction ss as [|e es IH]; intros seen; [apply free_none|]. cbn [sel_defaults]. fr. Qed.
Lemma fr_checkTypeMapping e t m : fr (checkTypeMapping s p e t m).
Proof. unfold checkTypeMapping. apply free_app; [apply fr_checkTop|]. fr. Qed.
Lemma fr_checkRValues vs : fr (chk_concat (map (checkRValue s) vs)).
Proof. apply free_concat. intros; apply fr_checkRValue. Qed.
Lemma fr_check_basic e : ~ is_step e -> fr (check_basic text s p e).
Proof.
  intros Hs. destruct e; cbn [check_basic]; try (exfalso; apply Hs; exact I);
  unfold checkAttributeOperation, checkAttributesOperation, checkCallNamed, checkCapabilityMapping,
    checkCollect, checkEpp, checkNamedAccess, checkParameter, checkIllegalAssignment, checkParameterNameUniqueness;
  repeat (fr; first [ apply fr_checkRValue | apply fr_checkAssign | apply fr_checkBlock | apply fr_case_defaults
    | apply fr_checkRValues | apply fr_checkNoCapture | apply fr_checkUnique | apply fr_checkNamedDefinition
    | apply fr_checkCaptureLast | apply fr_checkReturnType | apply fr_checkReservedParams | apply fr_checkNoIdemLast
    | apply fr_checkKeys | apply fr_checkHostname | apply fr_checkTop | apply fr_illegalAssignment
    | apply fr_checkRelation | apply fr_checkResourceBody | apply fr_sel_defaults | apply fr_checkRTN
    | apply fr_checkTypeRef | apply fr_checkTypeMapping | apply fr_checkQuery | idtac ]).
  destruct future; fr.
Qed.
End Free.

Lemma ordinary_filter c l : Forall (fun i => ordinary (i_code i) = true) l -> filter (has_code c) l = [].
Proof.
  induction 1 as [|i l Hi HF IH]; [reflexivity|]. cbn [filter].
  assert (has_code c i = false) as ->; [|exact IH].
  unfold has_code. destruct (i_code i); try discriminate; now destruct c.
Qed.
Lemma catalog_spec e : catalogOperation e = true <-> catalog_construct e.
Proof.
  destruct e; cbn; try (match goal with kk : bkind |- _ => destruct kk | kk : dkind |- _ => destruct kk end);
    cbn; split; intro; try reflexivity; try exact I; try discriminate; try contradiction.
Qed.
Lemma sum_over (c : vcode) (P : expr -> Prop) (D : forall e, {P e} + {~ P e}) k text s e l :
  (forall anc d l', check text s anc k d = inl l' -> map i_at (filter (has_code c) l') = if D d then [d] else []) ->
  validate k text s e = inl l ->
  map i_at (filter (has_code c) l) = keep D (e :: map snd (allContents [] e)).
Proof.
  intros HC H. rewrite validate_nodes in H.
  change (e :: map snd (allContents [] e)) with (map snd (([], e) :: allContents [] e)).
  revert H. generalize (([], e) :: allContents [] e) as vs. intros vs. revert l.
  induction vs as [|[anc d] vs IH]; intros l H.
  - injection H as <-. reflexivity.
  - cbn [map chk_concat fold_right] in H. apply chk_app_inl in H. destruct H as (l1 & l2 & H1 & H2 & ->).
    cbn [fst snd] in H1. rewrite filter_app, map_app, (HC _ _ _ H1), (IH l2 H2).
    cbn [map keep filter snd]. unfold keep. cbn [filter map snd]. now destruct (D d).
Qed.

Lemma catalog_nodes k text s anc d l : k <> Basic -> check text s anc k d = inl l ->
  map i_at (filter (has_code CatalogOperationNotSupported) l) = if catalog_dec d then [d] else [].
Proof.
  intros Hk H.
  assert (Hb: forall l, ~ is_step d -> check_basic text s anc d = inl l -> filter (has_code CatalogOperationNotSupported) l = []).
  { intros l0 Hs H0. apply ordinary_filter. pose proof (fr_check_basic text s anc Hs) as F. rewrite H0 in F. exact F. }
  destruct (is_step_dec d) as [Hs|Hs].
  - destruct d; try contradiction. destruct (catalog_dec _) as [c|_]; [destruct c|].
    destruct k; [congruence| |]; cbn in H; injection H as <-; reflexivity.
  - assert (H': (if catalogOperation d
      then accept s CatalogOperationNotSupported d [("operation"%string, AExpr (Some d))]
      else check_basic text s anc d) = inl l) by (destruct k; [congruence| |]; destruct d; try exact H; exfalso; apply Hs; exact I).
    destruct (catalogOperation d) eqn:Ec; destruct (catalog_dec d) as [C|C].
    + cbn in H'. injection H' as <-. reflexivity.
    + apply catalog_spec in Ec. contradiction.
    + apply catalog_spec in C. congruence.
    + now rewrite Hb.
Qed.
Theorem catalog_reported k text s e l : k <> Basic -> validate k text s e = inl l ->
  map i_at (filter (has_code CatalogOperationNotSupported) l) = keep catalog_dec (e :: map snd (allContents [] e)).
Proof. intros Hk. apply sum_over. intros anc d l'. now apply catalog_nodes. Qed.
Theorem catalog_allowed text s e l i : validate Basic text s e = inl l -> In i l -> i_code i <> CatalogOperationNotSupported.
Proof.
  intros H Hi. destruct (validate_from H Hi) as (anc & d & l' & _ & Hc & Hi'). cbn in Hc.
  destruct (is_step_dec d) as [Hs|Hs].
  - destruct d; try contradiction. cbn in Hc. injection Hc as <-. destruct Hi' as [<-|[]]. discriminate.
  - pose proof (fr_check_basic text s anc Hs) as F. rewrite Hc in F. cbn in F. rewrite Forall_forall in F.
    specialize (F i Hi'). destruct (i_code i); discriminate.
Qed.

Lemma step_nodes k text s anc d l : k <> Workflow -> check text s anc k d = inl l ->
  map i_at (filter (has_code WorkflowOperationNotSupported) l) = if is_step_dec d then [d] else [].
Proof.
  intros Hk H. destruct (is_step_dec d) as [Hs|Hs].
  - destruct d; try contradiction. destruct k; try congruence; cbn in H; injection H as <-; reflexivity.
  - assert (Hb: filter (has_code WorkflowOperationNotSupported) l = []); [|now rewrite Hb].
    destruct k; [| |congruence].
    + apply ordinary_filter. pose proof (fr_check_basic text s anc Hs) as F. cbn [check] in H. now rewrite H in F.
    + assert (H': (if catalogOperation d
      then accept s CatalogOperationNotSupported d [("operation"%string, AExpr (Some d))]
      else check_basic text s anc d) = inl l) by (destruct d; exact H).
      destruct (catalogOperation d).
      * cbn in H'. injection H' as <-. reflexivity.
      * apply ordinary_filter. pose proof (fr_check_basic text s anc Hs) as F. now rewrite H' in F.
Qed.
Theorem steps_reported k text s e l : k <> Workflow -> validate k text s e = inl l ->
  map i_at (filter (has_code WorkflowOperationNotSupported) l) = keep is_step_dec (e :: map snd (allContents [] e)).
Proof. intros Hk. apply sum_over. intros anc d l'. now apply step_nodes. Qed.
Theorem steps_allowed text s e l i : validate Workflow text s e = inl l -> In i l -> i_code i <> WorkflowOperationNotSupported.
Proof.
  intros H Hi. destruct (validate_from H Hi) as (anc & d & l' & _ & Hc & Hi').
  destruct (is_step_dec d) as [Hs|Hs].
  - destruct d; try contradiction. cbn in Hc. injection Hc as <-. destruct Hi'.
  - assert (H': (if catalogOperation d
      then accept s CatalogOperationNotSupported d [("operation"%string, AExpr (Some d))]
      else check_basic text s anc d) = inl l') by (destruct d; try exact Hc; exfalso; apply Hs; exact I).
    destruct (catalogOperation d).
    + cbn in H'. injection H' as <-. destruct Hi' as [<-|[]]. discriminate.
    + pose proof (fr_check_basic text s anc Hs) as F. rewrite H' in F. cbn in F. rewrite Forall_forall in F.
      specialize (F i Hi'). destruct (i_code i); discriminate.
Qed.
