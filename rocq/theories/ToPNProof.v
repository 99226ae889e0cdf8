(** * ToPNProof: proof of C19 *)
From Verif Require Import Base Float Tokens Ast Pn ToPN Ctx Literal Visit Validator SpecVisit VisitProof
  SpecLiteral LiteralProof SpecValidate ValidateProof SpecToPN.

Lemma keyOk_pn_key n : keyOk n = true <-> pn_key n.
Proof.
  assert (HS: forall c, keyStart c = true <-> pn_key_char c).
  { intros c. unfold keyStart, isLetter, pn_key_char, isUppercaseLetter, isLowercaseLetter, in_range.
    rewrite !Bool.orb_true_iff, !Bool.andb_true_iff, !Z.leb_le, !Z.eqb_eq. tauto. }
  assert (HC: forall c, keyChar c = true <-> pn_key_char c \/ ("0"%ch <= c <= "9"%ch)).
  { intros c. unfold keyChar, isDecimalDigit, in_range.
    rewrite Bool.orb_true_iff, HS, Bool.andb_true_iff, !Z.leb_le. tauto. }
  destruct n as [|c r]; cbn [keyOk].
  - split; [discriminate|]. intros (c & r & E & _). discriminate.
  - rewrite Bool.andb_true_iff, HS, forallb_forall. split.
    + intros [H1 H2]. exists c, r. repeat split; auto. apply Forall_forall. intros x Hx. apply HC, H2, Hx.
    + intros (c' & r' & E & H1 & H2). injection E as <- <-. split; [exact H1|]. intros x Hx.
      rewrite Forall_forall in H2. apply HC, H2, Hx.
Qed.

Lemma node_child e c anc d : In c (parts e) -> node_at c anc d -> exists anc', node_at e anc' d.
Proof.
  intros Hc Hn. apply In_nth_error in Hc. destruct Hc as (i & Hi).
  destruct Hn as [[-> ->]|(a & Hb)].
  - exists [e]. right. exists [i]. now constructor.
  - exists (anc ++ [e]). right. exists (i :: a). econstructor; eassumption.
Qed.
Lemma ready_child e c : pn_ready e -> In c (children e) -> pn_ready c.
Proof.
  intros H Hc anc d Hn. rewrite <- parts_children in Hc. destruct (node_child Hc Hn) as (anc' & H'). eauto.
Qed.
Lemma ready_here e : pn_ready e -> pn_ready_here e.
Proof. intros H. apply (H [] e). left. auto. Qed.

Lemma sequence_some (A : Type) (l : list (option A)) : Forall (fun o => exists x, o = Some x) l -> exists r, sequence l = Some r.
Proof.
  induction 1 as [|o l (x & ->) HF (r & IH)]; [exists []; reflexivity|]. cbn [sequence]. rewrite IH. eauto.
Qed.
Lemma seq_toPN l : (forall x, In x l -> exists q, toPN x = Some q) -> exists r, sequence (map toPN l) = Some r.
Proof. intros H. apply sequence_some. apply Forall_forall. intros o Ho. apply in_map_iff in Ho. destruct Ho as (x & <- & Hx). auto. Qed.
Lemma oseq_toPN o : (forall x, o = Some x -> exists q, toPN x = Some q) -> exists r, oseq (omap toPN o) = Some r.
Proof. destruct o as [x|]; [|exists None; reflexivity]. intros H. destruct (H x eq_refl) as (q & Hq). cbn. rewrite Hq. exists (Some q). reflexivity. Qed.

Lemma mkMap_some es : Forall (fun e => keyOk (fst e) = true) es -> exists m, mkMap es = Some m.
Proof.
  intros H. unfold mkMap. assert (forallb (fun e => keyOk (fst e)) es = true) as ->; [|eauto].
  apply forallb_forall. rewrite Forall_forall in H. exact H.
Qed.
Lemma obind_some (A B : Type) (o : option A) (f : A -> option B) x q : o = Some x -> f x = Some q -> obind o f = Some q.
Proof. intros -> H. exact H. Qed.

Ltac keyforall := repeat match goal with
  | |- Forall _ (_ ++ _) => apply Forall_app; split
  | |- Forall _ (_ :: _) => constructor
  | |- Forall _ [] => constructor
  | |- keyOk (fst (ent _ _)) = true => reflexivity
  | |- keyOk (fst (lit _, _)) = true => reflexivity
  | |- Forall _ (oent _ ?o) => destruct o; cbn [oent]
  | |- Forall _ (form_entry ?f) => destruct f; cbn [form_entry]
  | |- Forall _ (if ?b then _ else _) => destruct b
  | |- Forall _ (match ?x with _ => _ end) => destruct x
  | H : Forall _ ?l |- Forall _ ?l => exact H
  end.

Theorem toPN_ready e : pn_ready e -> exists q, toPN e = Some q.
Proof.
  induction e as [e IH] using height_ind. intros HR.
  assert (HC: forall c, In c (children e) -> exists q, toPN c = Some q).
  { intros c Hc. apply IH; [now apply child_height|]. eapply ready_child; eassumption. }
  assert (HCC: forall c d, In c (children e) -> In d (children c) -> exists q, toPN d = Some q).
  { intros c d Hc Hd. apply IH; [apply child_height in Hc, Hd; lia|].
    eapply ready_child; [eapply ready_child; eassumption|eassumption]. }
  pose proof (ready_here HR) as HH.
  assert (HB: forall b, In b (children e) -> exists q,
    (match b with
    | EBlock _ ss => l <-? sequence (map toPN ss); Some (PList l)
    | _ => x <-? toPN b; Some (PList [x])
    end) = Some q).
  { intros b Hb. destruct (HC b Hb) as (q & Hq).
    destruct b; try (rewrite Hq; cbn; eauto; fail).
    destruct (@seq_toPN statements) as (r & Hr); [|rewrite Hr; cbn; eauto].
    intros x Hx. apply (HCC _ x Hb). exact Hx. }
  assert (HP: forall ps, (forall x, In x ps -> In x (children e)) -> Forall good_param ps ->
    exists l, (match ps with
    | [] => Some []
    | _ => l <-? sequence (map (fun q => match q with
    | EParam _ name value typ rest =>
      t <-? oseq (omap toPN typ);
      v <-? oseq (omap toPN value);
      m <-? mkMap (oent "type" t ++ (if rest then [ent "splat" (PLit (LBool true))] else [])
                   ++ oent "value" v);
      Some (name, m)
    | _ => None
    end) ps); m <-? mkMap l; Some [ent "params" m]
    end) = Some l /\ Forall (fun e => keyOk (fst e) = true) l).
  { intros ps Hin Hg.
    assert (HS: exists l, sequence (map (fun q => match q with
      | EParam _ name value typ rest =>
        t <-? oseq (omap toPN typ);
        v <-? oseq (omap toPN value);
        m <-? mkMap (oent "type" t ++ (if rest then [ent "splat" (PLit (LBool true))] else [])
                     ++ oent "value" v);
        Some (name, m)
      | _ => None
      end) ps) = Some l /\ Forall (fun e => keyOk (fst e) = true) l).
    { induction Hg as [|x ps (p & n & v & t & r & -> & Hk) Hg IHg]; [exists []; split; [reflexivity|constructor]|].
      destruct IHg as (l & Hl & HF); [intros x Hx; apply Hin; now right|].
      assert (Hx: In (EParam p n v t r) (children e)) by (apply Hin; now left).
      destruct (@oseq_toPN t) as (ot & Ht); [intros x Ex; apply (HCC _ x Hx); cbn; rewrite Ex; now left|].
      destruct (@oseq_toPN v) as (ov & Hv);
        [intros x Ex; apply (HCC _ x Hx); cbn; rewrite Ex; apply in_or_app; right; now left|].
      destruct (@mkMap_some (oent "type" ot ++ (if r then [ent "splat" (PLit (LBool true))] else []) ++ oent "value" ov)) as (m & Hm);
        [keyforall|].
      exists ((n, m) :: l). split; [|constructor; [now apply keyOk_pn_key|exact HF]].
      cbn [map sequence]. rewrite Ht. cbn [obind]. rewrite Hv. cbn [obind]. rewrite Hm. cbn [obind].
      rewrite Hl. reflexivity. }
    destruct HS as (l & Hl & HF). destruct (mkMap_some HF) as (m & Hm).
    destruct ps as [|x ps]; [exists []; split; [reflexivity|constructor]|].
    rewrite Hl. cbn [obind]. rewrite Hm. cbn [obind]. eexists; split; [reflexivity|]. keyforall. }
  assert (HO: forall o, (forall x, o = Some x -> In x (children e)) -> exists r, oseq (omap toPN o) = Some r).
  { intros o Ho. apply oseq_toPN. intros x Hx. apply HC. auto. }
  assert (HL: forall l, (forall x, In x l -> In x (children e)) -> exists r, sequence (map toPN l) = Some r).
  { intros l Hl. apply seq_toPN. intros x Hx. apply HC. auto. }
  assert (HM: forall name es, Forall (fun e => keyOk (fst e) = true) es -> exists q, (m <-? mkMap es; Some (asCall (lit name) m)) = Some q).
  { intros name es Hes. destruct (mkMap_some Hes) as (m & ->). cbn. eauto. }
  Ltac inC := cbn [children]; intros; subst; repeat (progress (rewrite ?in_app_iff; cbn [In opt_list])); tauto.
  Ltac step HC HB HP HO HL HM HH := match goal with
    | |- exists q, obind (toPN ?x) _ = Some q => let y := fresh "y" in let H := fresh in destruct (HC x) as (y & H); [inC|rewrite H; cbn [obind]; clear H]
    | |- exists q, obind (sequence (map toPN ?l)) _ = Some q => let y := fresh "y" in let H := fresh in destruct (HL l) as (y & H); [inC|rewrite H; cbn [obind]; clear H]
    | |- exists q, obind (oseq (omap toPN ?o)) _ = Some q => let y := fresh "y" in let H := fresh in destruct (HO o) as (y & H); [inC|rewrite H; cbn [obind]; clear H]
    | |- exists q, toPN ?x = Some q => apply HC; inC
    | |- exists q, obind (mkMap _) _ = Some q => apply HM; keyforall
    | |- exists q, mkMap _ = Some q => apply mkMap_some; keyforall
    | |- exists q, Some _ = Some q => eexists; reflexivity
    end.
  destruct e; cbn [toPN]; try (repeat step HC HB HP HO HL HM HH; fail).
  - destruct k; try (repeat step HC HB HP HO HL HM HH; fail).
    cbn [pn_ready_here] in HH. destruct HH as [(q & n & ->)|(q & r & z & ->)]; eauto.
  - destruct (isNop e); repeat step HC HB HP HO HL HM HH.
  - repeat step HC HB HP HO HL HM HH. destruct (HB e) as (q & Hq); [inC|]. rewrite Hq. cbn [obind].
    repeat step HC HB HP HO HL HM HH.
  - destruct (HP params) as (l & Hl & HF); [inC|exact HH|]. rewrite Hl. cbn [obind].
    destruct (HB e) as (q & Hq); [inC|]. rewrite Hq. cbn [obind].
    destruct k; apply HM; keyforall.
  - destruct (HP params) as (l & Hl & HF); [inC|exact HH|]. rewrite Hl. cbn [obind].
    destruct (HB e) as (q & Hq); [inC|]. rewrite Hq. cbn [obind].
    repeat step HC HB HP HO HL HM HH.
  - repeat step HC HB HP HO HL HM HH.
    assert (exists a, (if isNop e2 then Some [] else x <-? (match e2 with
      | EBlock _ ss => l <-? sequence (map toPN ss); Some (PList l)
      | _ => x <-? toPN e2; Some (PList [x]) end); Some [ent "then" x]) = Some a /\ Forall (fun e => keyOk (fst e) = true) a)
      as (a & -> & Ha).
    { destruct (isNop e2); [exists []; split; [reflexivity|constructor]|].
      destruct (HB e2) as (q & Hq); [inC|]. rewrite Hq. cbn [obind]. eexists; split; [reflexivity|]. keyforall. }
    cbn [obind].
    assert (exists a, (if isNop e3 then Some [] else x <-? (match e3 with
      | EBlock _ ss => l <-? sequence (map toPN ss); Some (PList l)
      | _ => x <-? toPN e3; Some (PList [x]) end); Some [ent "else" x]) = Some a /\ Forall (fun e => keyOk (fst e) = true) a)
      as (b & -> & Hb).
    { destruct (isNop e3); [exists []; split; [reflexivity|constructor]|].
      destruct (HB e3) as (q & Hq); [inC|]. rewrite Hq. cbn [obind]. eexists; split; [reflexivity|]. keyforall. }
    cbn [obind]. destruct unless; apply HM; keyforall.
  - destruct (HP params) as (l & Hl & HF); [inC|exact HH|]. rewrite Hl. cbn [obind].
    repeat step HC HB HP HO HL HM HH.
    destruct (HB e) as (q & Hq); [inC|]. rewrite Hq. cbn [obind].
    apply HM; keyforall.
  - destruct (radix =? 10); repeat step HC HB HP HO HL HM HH.
  - repeat step HC HB HP HO HL HM HH.
    destruct (HB e) as (q & Hq); [inC|]. rewrite Hq. cbn [obind]. apply HM; keyforall.
Qed.

(** Trees whose nodes have the shape the parser gives them (established for
    parsed trees by C18), with parameter names the validator does not reject. *)
Definition param_shape_here (d : expr) : Prop :=
  match d with
  | EDef _ _ _ ps _ | EFunc _ _ _ ps _ _ | ELambda _ ps _ _ =>
    Forall (fun x => exists p n v t r, x = EParam p n v t r) ps
  | EUn _ KVariable x => (exists p n, x = EQName p n) \/ (exists p r z, x = EInt p r z)
  | _ => True
  end.
Theorem toPN_named e :
  (forall anc d, node_at e anc d -> param_shape_here d) ->
  (forall anc p n v t r, node_at e anc (EParam p n v t r) -> pn_key n) ->
  exists q, toPN e = Some q.
Proof.
  intros HS HV. apply toPN_ready. intros anc d Hn. pose proof (HS anc d Hn) as Hd.
  assert (HP: forall ps, (forall x, In x ps -> In x (children d)) ->
     Forall (fun x => exists p n v t r, x = EParam p n v t r) ps -> Forall good_param ps).
  { intros ps Hin HF. apply Forall_forall. intros x Hx. rewrite Forall_forall in HF.
    destruct (HF x Hx) as (p & n & v & t & r & ->). exists p, n, v, t, r. split; [reflexivity|].
    specialize (Hin _ Hx). rewrite <- parts_children in Hin. apply In_nth_error in Hin.
    destruct Hin as (i & Hi).
    assert (exists anc', node_at e anc' (EParam p n v t r)) as (anc' & Hn').
    { destruct Hn as [[-> ->]|(a & Hb)].
      - exists [e]. right. exists [i]. now constructor.
      - exists (d :: anc). right. exists (a ++ [i]). clear -Hb Hi.
        induction Hb as [e i' c Hc|e i' c a anc d Hc HB IH].
        + apply (@below_deep e i' c [i] [c]); [exact Hc|]. now constructor.
        + apply (@below_deep e i' c (a ++ [i]) (d :: anc)); auto. }
    eapply HV; exact Hn'. }
  destruct d; try exact I; try exact Hd; cbn in Hd |- *.
  - apply HP; [|exact Hd]. cbn [children]. intros x Hx. apply in_or_app. now left.
  - apply HP; [|exact Hd]. cbn [children]. intros x Hx. apply in_or_app. now left.
  - apply HP; [|exact Hd]. cbn [children]. intros x Hx. apply in_or_app. now left.
Qed.
Theorem toPN_validated k text s e l :
  (forall anc d, node_at e anc d -> param_shape_here d) ->
  validate k text s e = inl l ->
  (forall i, In i l -> i_code i <> IllegalParameterName /\ i_code i <> IllegalNumericParameter) ->
  exists q, toPN e = Some q.
Proof.
  intros HS HV HI. apply toPN_named; [exact HS|]. intros anc p n v t r Hn.
  apply keyOk_pn_key. eapply accepted_param_simple; [exact HV|exact Hn|]. intros j Hj _. auto.
Qed.
