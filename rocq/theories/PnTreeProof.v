(** * PnTreeProof: proof of C51 *)
From Verif Require Import Base Float Tokens Ast Pn ToPN Ctx Literal Visit Validator SpecLiteral LiteralProof SpecVisit VisitProof SpecValidate ValidateProof SpecToPN ToPNProof SpecShape SpecPnTree.

Definition blockAs (b : expr) : option pn :=
  match b with
  | EBlock _ ss => l <-? sequence (map toPN ss); Some (PList l)
  | _ => x <-? toPN b; Some (PList [x])
  end.
Definition paramEntry (q : expr) : option (str * pn) :=
  match q with
  | EParam _ name value typ rest =>
    t <-? oseq (omap toPN typ);
    v <-? oseq (omap toPN value);
    m <-? mkMap (oent "type" t ++ (if rest then [ent "splat" (PLit (LBool true))] else [])
                 ++ oent "value" v);
    Some (name, m)
  | _ => None
  end.
Definition paramsEntry (ps : list expr) : option (list (str * pn)) :=
  match ps with
  | [] => Some []
  | _ => l <-? sequence (map paramEntry ps); m <-? mkMap l; Some [ent "params" m]
  end.
Notation many := (many read).
Notation block := (block read).
Notation parameter := (parameter read).
Notation parameters := (parameters read).
Lemma read_call r n args : read r (PCall n args) = match form_of forms n with Some f => read_form read r f args | None => None end.
Proof. reflexivity. Qed.

Lemma field_cons (A : Type) k (f : pn -> option A) k' v es :
  field k f ((k', v) :: es) = if str_eqb k' (lit k) then f v else field k f es.
Proof. reflexivity. Qed.
Lemma field_or_cons (A : Type) (d : A) k (f : pn -> option A) k' v es :
  field_or d k f ((k', v) :: es) = if str_eqb k' (lit k) then f v else field_or d k f es.
Proof. reflexivity. Qed.
Lemma field_or_nil (A : Type) (d : A) k (f : pn -> option A) : field_or d k f [] = Some d.
Proof. reflexivity. Qed.
Lemma mkMap_inv es m : mkMap es = Some m -> m = PMap es.
Proof. unfold mkMap. destruct forallb; congruence. Qed.

Lemma plain_role e : is_expression e = true -> place_of e = Plain.
Proof. destruct e; intros H; try discriminate; reflexivity. Qed.
Lemma plain_statement e : is_statement e = true -> place_of e = Plain.
Proof. destruct e; intros H; try discriminate; reflexivity. Qed.
Lemma plain_segment e : is_segment e = true -> place_of e = Plain.
Proof. destruct e; intros H; try discriminate; reflexivity. Qed.
Lemma plain_host e : is_host e = true -> place_of e = Plain.
Proof. destruct e; intros H; try discriminate; reflexivity. Qed.
Lemma plain_param e : is_param e = true -> place_of e = Plain.
Proof. destruct e; intros H; try discriminate; reflexivity. Qed.
Lemma plain_type e : is_type e = true -> place_of e = Plain.
Proof. destruct e; intros H; try discriminate; reflexivity. Qed.
Lemma plain_block e : is_block e = true -> place_of e = Plain.
Proof. destruct e; intros H; try discriminate; reflexivity. Qed.
Lemma plain_hash e : is_hash e = true -> place_of e = Plain.
Proof. destruct e; intros H; try discriminate; reflexivity. Qed.
Lemma plain_lambda e : is_lambda e = true -> place_of e = Plain.
Proof. destruct e; intros H; try discriminate; reflexivity. Qed.
Lemma plain_query e : is_query e = true -> place_of e = Plain.
Proof. destruct e; intros H; try discriminate; reflexivity. Qed.
Lemma plain_access e : is_access e = true -> place_of e = Plain.
Proof. destruct e; intros H; try discriminate; reflexivity. Qed.
Lemma plain_component e : is_component e = true -> place_of e = Plain.
Proof. destruct e; intros H; try discriminate; reflexivity. Qed.
Lemma plain_named e : is_named_access e = true -> place_of e = Plain.
Proof. destruct e; intros H; try discriminate; reflexivity. Qed.
Lemma plain_text e : is_string_text e = true -> place_of e = Plain.
Proof. destruct e; intros H; try discriminate; reflexivity. Qed.
Lemma plain_root e : is_root e = true -> place_of e = Plain.
Proof. destruct e; intros H; try discriminate; reflexivity. Qed.
Lemma plain_parameters e : is_parameters e = true -> place_of e = Plain.
Proof. destruct e; intros H; try discriminate; reflexivity. Qed.
Lemma plain_def d : is_block d || is_hash d = true -> place_of d = Plain.
Proof. destruct d; intros H; try discriminate; reflexivity. Qed.
Lemma in_hash e : is_pair e = true -> place_of e = InHash.
Proof. destruct e; intros H; try discriminate; reflexivity. Qed.
Lemma in_selector e : is_selector_entry e = true -> place_of e = InSelector.
Proof. destruct e; intros H; try discriminate; reflexivity. Qed.
Lemma in_case e : is_case_option e = true -> place_of e = InCase.
Proof. destruct e; intros H; try discriminate; reflexivity. Qed.
Lemma in_attributes e : is_attribute e = true -> place_of e = InAttributes.
Proof. destruct e; intros H; try discriminate; reflexivity. Qed.
Global Hint Resolve plain_role plain_statement plain_segment plain_host plain_param plain_type plain_block plain_hash plain_lambda
  plain_query plain_access plain_component plain_named plain_text plain_root plain_parameters plain_def in_hash in_selector in_case in_attributes : places.
Lemma all_places f r l : (forall e, f e = true -> place_of e = r) -> all f l -> forall x, In x l -> place_of x = r.
Proof. intros H Ha x Hx. apply H. unfold all in Ha. rewrite forallb_forall in Ha. auto. Qed.

Lemma statement_not_template e : is_statement e = true -> forall p b x, known e <> EEpp p b x.
Proof.
  destruct e; intros H p' b' x'; try discriminate H; cbn [known]; try discriminate.
  destruct k; try discriminate. destruct e; discriminate.
Qed.
Lemma block_body ss : all is_statement ss -> body_of (map known ss) = EBlock here (map known ss).
Proof.
  intros H. destruct ss as [|s [|? ?]]; try reflexivity.
  - cbn [map body_of]. pose proof (@statement_not_template s) as K. unfold all in H. cbn in H.
    rewrite Bool.andb_true_r in H. specialize (K H). destruct (known s); try reflexivity. exfalso. eapply K. reflexivity.
  - cbn [map body_of]. destruct (known s); reflexivity.
Qed.

Lemma read_list r l : (forall x q, In x l -> toPN x = Some q -> read r q = Some (known x)) ->
  forall ps, sequence (map toPN l) = Some ps -> every (map (read r) ps) = Some (map known l).
Proof.
  induction l as [|x l IH]; intros H ps E; [injection E as <-; reflexivity|].
  cbn [map sequence] in E. destruct (toPN x) as [q|] eqn:Eq; [|discriminate]. destruct (sequence _) as [qs|] eqn:Es; [|discriminate].
  injection E as <-. cbn [map every]. rewrite (H x q); [|now left|exact Eq]. rewrite (IH (fun y qy Hy => H y qy (or_intror Hy)) qs eq_refl). reflexivity.
Qed.
Lemma read_bodies l : (forall x q, In x l -> toPN x = Some q -> read Plain q = Some (known x)) -> all is_resource_body l ->
  forall ps, sequence (map toPN l) = Some ps -> every (map (read InResource) (flat_map asParameters ps)) = Some (map known l).
Proof.
  induction l as [|x l IH]; intros H Ha ps E; [injection E as <-; reflexivity|].
  cbn [map sequence] in E. destruct (toPN x) as [q|] eqn:Eq; [|discriminate]. destruct (sequence _) as [qs|] eqn:Es; [|discriminate].
  injection E as <-. unfold all in Ha. cbn [forallb] in Ha. apply Bool.andb_true_iff in Ha. destruct Ha as [Hx Ha].
  pose proof (H x q (or_introl eq_refl) Eq) as Hr. specialize (IH (fun y qy Hy => H y qy (or_intror Hy)) Ha qs eq_refl).
  destruct x; try discriminate Hx. cbn [toPN] in Eq.
  destruct (toPN x); [cbn [obind] in Eq|discriminate]. destruct (sequence (map toPN ops)); [cbn [obind] in Eq|discriminate].
  destruct (mkMap _) as [m|] eqn:Em; [cbn [obind] in Eq|discriminate]. injection Eq as <-. apply mkMap_inv in Em. subst m.
  cbn [flat_map asCall asParameters app map every]. 
  match goal with |- context [read InResource (PMap ?es)] =>
    assert (A : read InResource (PMap es) = Some (known (EResBody p x ops))) by exact Hr; rewrite A end. rewrite IH. reflexivity.
Qed.
Lemma read_plain_map es : read Plain (PMap es) = None.
Proof. reflexivity. Qed.

Lemma some_inj (A : Type) (a b : A) : Some a = Some b -> a = b.
Proof. congruence. Qed.
Ltac form :=
  rewrite read_call;
  match goal with |- context [form_of forms ?n] =>
    let v := eval vm_compute in (form_of forms n) in change (form_of forms n) with v; cbv iota beta
  end; unfold read_form; cbv iota beta.
(* one field after the other *)
Ltac fields :=
  repeat first
  [ rewrite field_cons | rewrite field_or_cons | rewrite field_or_nil
  | match goal with |- context [str_eqb (lit ?a) (lit ?b)] =>
      let v := eval vm_compute in (str_eqb (lit a) (lit b)) in change (str_eqb (lit a) (lit b)) with v; cbv iota beta
    end ].
Ltac inv H := repeat match type of H with
  | obind ?o _ = Some _ => let E := fresh "E" in destruct o eqn:E; [cbn [obind] in H|discriminate H]
  end.

Theorem readable e : (forall anc d, node_at e anc d -> grammar d) -> forall q, toPN e = Some q -> read (place_of e) q = Some (known e).
Proof.
  induction e as [e IH] using height_ind. intros HG q E.
  assert (GC : forall c, In c (children e) -> forall anc d, node_at c anc d -> grammar d).
  { intros c Hc anc d Hn. rewrite <- parts_children in Hc. destruct (node_child Hc Hn) as (anc' & H'). eauto. }
  assert (HC : forall c r, In c (children e) -> place_of c = r -> forall p, toPN c = Some p -> read r p = Some (known c)).
  { intros c r Hc <- p Hp. apply IH; [now apply child_height|now apply GC|exact Hp]. }
  assert (HCC : forall c d r, In c (children e) -> In d (children c) -> place_of d = r -> forall p, toPN d = Some p -> read r p = Some (known d)).
  { intros c d r Hc Hd <- p Hp. apply IH; [apply child_height in Hc, Hd; lia| |exact Hp].
    intros anc x Hn. rewrite <- parts_children in Hd. destruct (node_child Hd Hn) as (anc' & H'). eapply GC; eassumption. }
  assert (HL : forall r f l, (forall x, f x = true -> place_of x = r) -> all f l -> (forall x, In x l -> In x (children e)) ->
    forall ps, sequence (map toPN l) = Some ps -> every (map (read r) ps) = Some (map known l)).
  { intros r f l Hf Ha Hin. apply read_list. intros x p Hx. apply HC; [auto|]. eapply all_places; eassumption. }
  assert (HO : forall f o, (forall x, f x = true -> place_of x = Plain) -> opt f o -> (forall x, o = Some x -> In x (children e)) ->
    forall p, oseq (omap toPN o) = Some p -> match p with Some y => some (read Plain) y = Some (ored known o) | None => o = None end).
  { intros f o Hf Ho Hin p Ep. destruct o as [x|]; cbn in Ep; [|now injection Ep as <-].
    destruct (toPN x) as [y|] eqn:Ey; [|discriminate]. injection Ep as <-. unfold some. rewrite (HC x Plain (Hin x eq_refl) (Hf x Ho) y Ey). reflexivity. }
  assert (HB : forall b, In b (children e) -> is_block b = true -> forall p, blockAs b = Some p -> block p = Some (known b)).
  { intros b Hb Hk p Ep. destruct b; try discriminate Hk. cbn [blockAs] in Ep. inv Ep. injection Ep as <-. cbn [SpecPnTree.block].
    pose proof (GC _ Hb [] _ (or_introl (conj eq_refl eq_refl))) as [Hs _].
    rewrite (@read_list Plain statements) with (ps := l); [|intros x y Hx; apply (HCC _ x Plain Hb Hx); eapply all_places; [|exact Hs|exact Hx]; auto with places|assumption].
    rewrite block_body by exact Hs. reflexivity. }
  assert (HP : forall ps, (forall x, In x ps -> In x (children e)) -> all is_param ps -> forall l, sequence (map paramEntry ps) = Some l ->
    every (map (fun e => match e with (n, v) => parameter n v end) l) = Some (map known ps)).
  { intros ps. induction ps as [|x ps IHp]; intros Hin Ha l El; [injection El as <-; reflexivity|].
    cbn [map sequence] in El. destruct (paramEntry x) as [[n v]|] eqn:Ex; [|discriminate]. destruct (sequence _) as [qs|] eqn:Es; [|discriminate].
    injection El as <-. unfold all in Ha. cbn [forallb] in Ha. apply Bool.andb_true_iff in Ha. destruct Ha as [Hx Ha].
    specialize (IHp (fun y Hy => Hin y (or_intror Hy)) Ha qs eq_refl). cbn [map every]. rewrite IHp.
    destruct x; try discriminate Hx. cbn [paramEntry] in Ex. inv Ex. injection Ex as <- <-. 
    match goal with K : mkMap _ = Some _ |- _ => apply mkMap_inv in K; subst end.
    pose proof (Hin _ (or_introl eq_refl)) as Hc.
    pose proof (GC _ Hc [] _ (or_introl (conj eq_refl eq_refl))) as [G1 G2].
    cbn [SpecPnTree.parameter].
    assert (K : forall f o', (forall x, f x = true -> place_of x = Plain) -> opt f o' -> (forall x, o' = Some x -> In x (children (EParam p name value typ rest))) ->
      forall p, oseq (omap toPN o') = Some p -> match p with Some y => some (read Plain) y = Some (ored known o') | None => o' = None end).
    { intros f o' Hf Ho' Hi p' Ep. destruct o' as [x|]; cbn in Ep; [|now injection Ep as <-].
      destruct (toPN x) as [y|] eqn:Ey; [|discriminate]. injection Ep as <-. unfold some. rewrite (HCC _ x Plain Hc (Hi x eq_refl) (Hf x Ho') y Ey). reflexivity. }
    pose proof (K _ _ plain_role G1 ltac:(cbn; intros; subst; rewrite ?in_app_iff; cbn; tauto) _ E1) as K1.
    pose proof (K _ _ plain_type G2 ltac:(cbn; intros; subst; rewrite ?in_app_iff; cbn; tauto) _ E0) as K2.
    cbn [known]. destruct o as [o|], o0 as [o0|], rest; cbn [oent ent app]; unfold ent; fields; cbn [bool_of]; rewrite ?K1, ?K2; reflexivity. }
  assert (HPE : forall ps, (forall x, In x ps -> In x (children e)) -> all is_param ps -> forall l, paramsEntry ps = Some l ->
    (ps = [] /\ l = []) \/ exists m, l = [ent "params" m] /\ parameters m = Some (map known ps)).
  { intros ps Hin Ha l El. destruct ps as [|x ps]; [left; split; [reflexivity|now injection El as <-]|right].
    unfold paramsEntry in El. inv El. apply some_inj in El. subst l. exists p. split; [reflexivity|].
    apply mkMap_inv in E1. subst p. cbn [SpecPnTree.parameters]. now apply HP. }
  pose proof (HG [] e (or_introl (conj eq_refl eq_refl))) as Hg.
  Ltac inC := cbn [children]; intros; subst; repeat (progress (rewrite ?in_app_iff; cbn [In opt_list])); tauto.
  Ltac placed R := first [exact (plain_role R) | exact (plain_statement R) | exact (plain_segment R) | exact (plain_host R) | exact (plain_param R) | exact (plain_type R) | exact (plain_block R) | exact (plain_hash R) | exact (plain_lambda R) | exact (plain_query R) | exact (plain_access R) | exact (plain_component R) | exact (plain_named R) | exact (plain_text R) | exact (plain_root R) | exact (plain_parameters R) | exact (plain_def R) | exact (in_hash R) | exact (in_selector R) | exact (in_case R) | exact (in_attributes R)].
  Ltac places := first [exact plain_role | exact plain_statement | exact plain_segment | exact plain_host | exact plain_param | exact plain_type | exact plain_block | exact plain_hash | exact plain_lambda | exact plain_query | exact plain_access | exact plain_component | exact plain_named | exact plain_text | exact plain_root | exact plain_parameters | exact plain_def | exact in_hash | exact in_selector | exact in_case | exact in_attributes].
  Ltac hyps := repeat match goal with K : _ /\ _ |- _ => destruct K end.
  Ltac one_fact HC HL HO HB := match goal with
    | K : toPN ?x = Some _, R : ?f ?x = true |- _ =>
      pose proof (HC x _ ltac:(inC) ltac:(placed R) _ K); clear K
    | K : toPN ?x = Some _ |- _ =>
      pose proof (HC x _ ltac:(inC) ltac:(reflexivity) _ K); clear K
    | K : sequence (map toPN ?l) = Some _, R : all ?f ?l |- _ =>
      pose proof (HL _ f l ltac:(places) R ltac:(inC) _ K); clear K
    | K : oseq (omap toPN ?o) = Some _, R : opt ?f ?o |- _ =>
      pose proof (HO f o ltac:(places) R ltac:(inC) _ K); clear K
    | K : mkMap _ = Some _ |- _ => apply mkMap_inv in K; subst
    | K : Some ?a = Some ?b |- _ => apply some_inj in K; subst
    | R : is_block ?b = true, K : @eq (option pn) _ (Some ?p) |- _ =>
      change (blockAs b = Some p) in K; pose proof (HB b ltac:(inC) R _ K); clear K
    end.
  Ltac peel := repeat match goal with
    | K : read Plain ?p = Some _ |- context [match ?p with _ => _ end] => destruct p; try discriminate K; cbv iota beta
    end.
  Ltac rw := repeat match goal with
    | K : read _ _ = Some _ |- _ => rewrite K; clear K
    | K : every _ = Some _ |- _ => rewrite K; clear K
    end.
  destruct e; cbn [grammar] in Hg; cbn [toPN] in E.
  all: inv E; hyps.
  all: lazymatch goal with
    | |- _ = Some (known (EEpp _ _ _)) => idtac
    | |- _ = Some (known (ESite _ _)) => idtac
    | _ => repeat one_fact HC HL HO HB; hyps
    end.
  all: cbn [place_of].
  Ltac rw2 := repeat match goal with
    | K : read _ _ = Some _ |- _ => rewrite K; clear K
    | K : every _ = Some _ |- _ => rewrite K; clear K
    | K : some _ _ = Some _ |- _ => rewrite K; clear K
    | K : block _ = Some _ |- _ => rewrite K; clear K
    end.
  Ltac simple_case := form; rw2; cbn [SpecPnTree.many string_of]; rw2; reflexivity.
  Ltac opts_ := repeat match goal with
    | |- context [oent _ ?o] => destruct o; cbn [oent app]
    | |- context [form_entry ?f] => destruct f; cbn [form_entry app]
    | |- context [if ?b then _ else _] => is_var b; destruct b; cbn [app]
    end.
  Ltac map_case := opts_; unfold ent; cbn [asCall]; form; fields; cbn [string_of int_of bool_of SpecPnTree.many]; rw2; subst; reflexivity.
  Ltac with_params HPE params :=
    match goal with K : _ = Some ?l, R : all is_param params |- _ =>
      change (paramsEntry params = Some l) in K;
      let m := fresh "m" in let Hm := fresh "Hm" in destruct (HPE params ltac:(inC) R _ K) as [[? ?]|(m & ? & Hm)]; clear K; subst
    end.
  all: try (timeout 5 reflexivity).
  all: try (timeout 5 simple_case).
  all: try (timeout 20 map_case).
  - (* operators *)
    destruct k; cbn [bin_name]; match goal with K : text_in op _ |- _ => unfold text_in in K; cbn [operator_texts map In] in K end;
      repeat match goal with K : _ \/ _ |- _ => destruct K end; try contradiction; subst op; simple_case.
  - (* unary operators and variables *)
    destruct k; try (inv E; repeat one_fact HC HL HO HB; simple_case).
    destruct e; try discriminate; apply some_inj in E; subst q; simple_case.
  - (* queries *)
    destruct exported; (destruct (isNop e) eqn:En;
      [apply some_inj in E; subst q; destruct e; try discriminate; simple_case
      |assert (is_expression e = true) by (apply Bool.orb_true_iff in Hg; destruct Hg as [K|K]; [exact K|destruct e; discriminate]); inv E; repeat one_fact HC HL HO HB;
       form; rw2; destruct e; try discriminate En; reflexivity]).
  - match goal with K : text_in op _ |- _ => unfold text_in in K; cbn [map In] in K end;
      repeat match goal with K : _ \/ _ |- _ => destruct K end; try contradiction; subst op; simple_case.
  - match goal with K : text_in kind _ |- _ => unfold text_in in K; cbn [map In] in K end;
      repeat match goal with K : _ \/ _ |- _ => destruct K end; try contradiction; subst kind; simple_case.
  - (* case options *)
    unfold ent. cbn [read]. unfold case_option. fields. cbn [SpecPnTree.many]. rw2. reflexivity.
  - (* templates *)
    destruct e; try discriminate. cbn [toPN] in E0. inv E0. apply some_inj in E0, E. subst q p0.
    pose proof (GC _ (or_introl eq_refl) [] _ (or_introl (conj eq_refl eq_refl))) as [Hs _].
    assert (K : every (map (read Plain) l) = Some (map known statements)).
    { eapply read_list; [|eassumption]. intros x y Hx. apply (HCC (EBlock p1 statements) x); [now left|exact Hx|].
      eapply all_places; [|exact Hs|exact Hx]. exact plain_statement. }
    cbn [asCall]. simple_case.
  - (* definitions *)
    with_params HPE params; (destruct k as [| |parent]; [| |destruct parent as [|x parent]]); cbv zeta in E; inv E; apply some_inj in E; subst q;
      match goal with K : mkMap _ = Some _ |- _ => apply mkMap_inv in K; subst end;
      repeat one_fact HC HL HO HB; unfold ent; cbn [asCall app]; form; fields; cbn [string_of]; rewrite ?Hm; rw2; reflexivity.
  - with_params HPE params; opts_; unfold ent; cbn [asCall app]; form; fields; cbn [string_of]; rewrite ?Hm; rw2; subst; reflexivity.
  - (* if and unless *)
    assert (isNop e2 = false) as N2 by (destruct e2; try discriminate; reflexivity). rewrite N2 in E1.
    change ((x <-? blockAs e2; Some [ent "then" x]) = Some l) in E1. inv E1. apply some_inj in E1. subst l.
    match goal with K : blockAs e2 = Some _ |- _ => pose proof (HB e2 ltac:(inC) H0 _ K) as B2; clear K end.
    destruct e3; try discriminate H1; cbn [isNop] in E2.
    + match type of E2 with obind _ _ = Some ?r => change ((x <-? blockAs (EBlock p2 statements); Some [ent "else" x]) = Some r) in E2 end.
      inv E2. apply some_inj in E2. subst l0.
      match goal with K : blockAs (EBlock _ _) = Some _ |- _ => pose proof (HB (EBlock p2 statements) ltac:(inC) eq_refl _ K) as B3; clear K end.
      destruct unless; unfold ent; cbn [asCall app]; form; fields; rewrite B2, B3; rw2; reflexivity.
    + destruct (toPN (EIf p2 unless0 e3_1 e3_2 e3_3)) as [p3|] eqn:E3; cbn [obind] in E2; [|discriminate]. apply some_inj in E2. subst l0.
      pose proof (HC (EIf p2 unless0 e3_1 e3_2 e3_3) Plain ltac:(inC) eq_refl _ E3) as B3.
      assert (B4 : block (PList [p3]) = Some (EBlock here [known (EIf p2 unless0 e3_1 e3_2 e3_3)])).
      { cbn [SpecPnTree.block map every]. rewrite B3. reflexivity. }
      destruct unless; unfold ent; cbn [asCall app]; form; fields; rewrite B2, B4; rw2; reflexivity.
    + apply some_inj in E2. subst.
      destruct unless; unfold ent; cbn [asCall app]; form; fields; rewrite B2; rw2; reflexivity.
  - assert (place_of e2 = Plain) as P2 by (destruct H0 as [K|K]; [exact (plain_role K)|exact (plain_parameters K)]).
    rewrite P2 in *. simple_case.
  - (* lambdas *)
    assert (B : block p0 = Some (known e)).
    { destruct e; try discriminate; [eapply HB; [inC|reflexivity|eassumption]|].
      match goal with K : (x <-? toPN (EEpp ?q ?s ?b); _) = Some _ |- _ =>
        destruct (toPN (EEpp q s b)) as [y|] eqn:Ey; cbn [obind] in K; [|discriminate]; apply some_inj in K; subst p0;
        cbn [SpecPnTree.block map every]; rewrite (HC (EEpp q s b) Plain ltac:(inC) eq_refl _ Ey) end.
      reflexivity. }
    with_params HPE params; opts_; unfold ent; cbn [asCall app]; form; fields; cbn [string_of]; rewrite ?Hm, ?B; rw2; subst; reflexivity.
  - (* integers *)
    destruct (radix =? 10) eqn:Er; [apply Z.eqb_eq in Er; subst; apply some_inj in E; subst q; reflexivity|].
    inv E. apply some_inj in E. subst q. match goal with K : mkMap _ = Some _ |- _ => apply mkMap_inv in K; subst end. map_case.
  - (* arrays *)
    destruct Hg; repeat one_fact HC HL HO HB; simple_case.
  - (* parameters *)
    opts_; unfold ent; cbn [asCall app]; form; fields; cbn [string_of SpecPnTree.parameter]; fields; cbn [bool_of]; rw2; subst; reflexivity.
  - (* programs *)
    assumption.
  - unfold ent; cbn [asCall app]; form; unfold resource_body; fields; cbn [SpecPnTree.many]; rw2; reflexivity.
  - (* resources *)
    assert (K : every (map (read InResource) (flat_map asParameters l)) = Some (map known bodies)).
    { eapply read_bodies; [|eassumption|eassumption]. intros x y Hx. apply HC; [inC|].
      match goal with A : all is_resource_body _ |- _ => unfold all in A; rewrite forallb_forall in A; specialize (A x Hx) end.
      destruct x; try discriminate; reflexivity. }
    map_case.
  - (* site *)
    destruct e; try discriminate. cbn [toPN] in E0. inv E0. apply some_inj in E0, E. subst q p0.
    pose proof (GC _ (or_introl eq_refl) [] _ (or_introl (conj eq_refl eq_refl))) as [Hs _].
    assert (K : every (map (read Plain) l) = Some (map known statements)).
    { eapply read_list; [|eassumption]. intros x y Hx. apply (HCC (EBlock p1 statements) x); [now left|exact Hx|].
      eapply all_places; [|exact Hs|exact Hx]. exact plain_statement. }
    cbn [asCall]. simple_case.
  - (* steps *)
    opts_; unfold ent; cbn [asCall app]; form; fields; cbn [string_of]; destruct st; cbn [style_str]; unfold step_style; cbn [string_of]; fields; rw2; subst; reflexivity.
Qed.
