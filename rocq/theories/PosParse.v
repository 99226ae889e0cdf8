(** * PosParse: every function of the parser makes progress

    The bodies of the tags, as seen from the state [q0] at the call: calls are
    made after progress, or have a lower rank. *)
From Verif Require Import Base Float Tokens Ast Ctx Locator Lexer Parser Utf8Facts PosBase PosLex PosSpec PosTok.
From Coq Require Import Lia ZifyBool.

Section Rel.
Variable T : str.
Notation L := (LT T).
Definition kq (q : st) : Z := ky T (qp q) (qv q).
Definition rq (q : st) : Z := ky T (qs q) (qv q).
Definition aq (q : st) : Z := 3 * kq q + 2 - weight (qt q).
Definition okq (q : st) : Prop := rngs T (qp q) (qv q) (qs q).
Definition vq (q q' : st) : Prop := vnext (qp q) (qv q) (qv q').
Definition geq (q q' : st) : Prop := aq q <= aq q' /\ vq q q' /\ (rq q <= rq q' \/ kq q <= rq q').
Definition moreq (q q' : st) : Prop := aq q < aq q' /\ vq q q' /\ kq q <= rq q'.
(** the state [q] is reached from [q0], with [b] after progress *)
Definition rel (q0 : st) (b : bool) (q : st) : Prop := okq q /\ geq q0 q /\ (b = true -> moreq q0 q).
Notation Sq q := (S_ T true (qp q) (qv q) (qt q) (qs q)).

Lemma Sq_of b q c : S_ T b (qp q) (qv q) (qt q) (qs q) c -> of_ctx c = q.
Proof. intros (H1 & H2 & H3 & H4 & H5 & _). unfold of_ctx. rewrite H2, H3, H4, H5. now destruct q. Qed.
Lemma Sq_okc q c : Sq q c -> okq q -> okc T true c.
Proof. intros H R. eapply S_okc; eauto. Qed.
Lemma okc_Sq c : okc T true c -> Sq (of_ctx c) c /\ okq (of_ctx c).
Proof. intros [H R]. split; [exact H|exact R]. Qed.
Lemma aq_kq q q' : aq q <= aq q' -> kq q <= kq q'.
Proof. unfold aq. pose proof (weight_range (qt q)). pose proof (weight_range (qt q')). lia. Qed.
Lemma geq_refl q : geq q q.
Proof. unfold geq, vq, vnext. lia. Qed.
Lemma vq_comp q q1 q2 : okq q -> okq q1 -> kq q <= kq q1 -> vq q q1 -> vq q1 q2 -> vq q q2.
Proof. intros R1 R2 K V1 V2. unfold vq in *. eapply (@vn_trans T (qp q) (qv q) (qp q1) (qv q1)); eauto; [apply R1|apply R2]. Qed.
Lemma rel_refl q : okq q -> rel q false q.
Proof. intros H. split; [exact H|]. split; [apply geq_refl|discriminate]. Qed.
Lemma rel_ok q0 b q : rel q0 b q -> 0 <= qp q <= L + 1 /\ -1 <= qv q <= L + 1 /\ 0 <= qs q <= L + 1.
Proof. now intros [H _]. Qed.
Lemma rel_weak q0 b q : rel q0 b q -> rel q0 false q.
Proof. intros (H1 & H2 & H3). split; [auto|]. split; [auto|discriminate]. Qed.
Lemma moreq_geq q q' : moreq q q' -> geq q q'.
Proof. unfold moreq, geq. intuition lia. Qed.
Lemma rel_ge q0 b q q' : okq q0 -> rel q0 b q -> okq q' -> geq q q' -> rel q0 b q'.
Proof.
  intros O (H1 & (A1 & A2 & A3) & H3) O' (B1 & B2 & B3). pose proof (aq_kq A1). pose proof (aq_kq B1).
  assert (V: vq q0 q') by (eapply vq_comp with (q1 := q); eauto).
  split; [exact O'|]. split; [unfold geq; intuition lia|]. intros E. destruct (H3 E) as (C1 & C2 & C3). unfold moreq. intuition lia.
Qed.
Lemma rel_more q0 b q q' : okq q0 -> rel q0 b q -> okq q' -> moreq q q' -> rel q0 true q'.
Proof.
  intros O (H1 & (A1 & A2 & A3) & H3) O' (B1 & B2 & B3). pose proof (aq_kq A1). 
  assert (V: vq q0 q') by (eapply vq_comp with (q1 := q); eauto).
  split; [exact O'|]. split; [|intros _]; [unfold geq; intuition lia|unfold moreq; intuition lia].
Qed.
Lemma rel_any q0 b q : rel q0 true q -> rel q0 b q.
Proof. intros (H1 & H2 & H3). split; [auto|]. split; auto. Qed.
Lemma rel_true q0 q : rel q0 true q -> moreq q0 q. Proof. intros (_ & _ & H). now apply H. Qed.
Lemma rel_false q0 b q : rel q0 b q -> geq q0 q. Proof. now intros (_ & H & _). Qed.
End Rel.
Notation Sq T q := (S_ T true (qp q) (qv q) (qt q) (qs q)).

(** ** Pure steps *)
Section Pure.
Variables (T : str) (B : Prop).
Notation L := (LT T).
Notation wpf := (wpf (Ep T) B).
Notation S_ := (S_ T).
Lemma r_tokenString p v t s c (Q : str -> ctx -> Prop) : S_ true p v t s c -> (forall y, Q y c) -> wpf tokenString c Q.
Proof. intros Hs HQ. unfold tokenString. x. match goal with |- context [match ?v with _ => _ end] => destruct v end; x; auto. Qed.
Lemma r_span y p v t s c (Q : pos -> ctx -> Prop) : S_ true p v t s c -> (forall l, Q (mkpos y l) c) -> wpf (span y) c Q.
Proof. intros Hs HQ. unfold span. apply wpf_ask. auto. Qed.
Lemma r_assertToken y p v t s c (Q : unit -> ctx -> Prop) : S_ true p v t s c -> 0 <= s <= L + 1 -> (t = y -> Q tt c) -> wpf (assertToken y) c Q.
Proof.
  intros Hs Hr HQ. unfold assertToken. x. x_case; x.
  - apply HQ. now apply tok_eqb_eq.
  - eapply r_pos_tsp; [x_s|]. x_in. cbv beta. x.
Qed.
Lemma r_unexpected A p v t s c (Q : A -> ctx -> Prop) : S_ true p v t s c -> 0 <= p <= L + 1 -> wpf unexpectedToken c Q.
Proof. intros Hs Hr. unfold unexpectedToken. x. Qed.
Lemma r_toStart p v t s c (Q : unit -> ctx -> Prop) : S_ true p v t s c -> (forall c', S_ true s v t s c' -> Q tt c') -> wpf toTokenStart c Q.
Proof. intros Hs HQ. unfold toTokenStart. eapply r_pos_tsp; eauto. Qed.
Lemma r_addDef e p v t s c (Q : expr -> ctx -> Prop) : S_ true p v t s c -> (forall c', S_ true p v t s c' -> Q e c') -> wpf (addDefinition e) c Q.
Proof. intros Hs HQ. unfold addDefinition. x. eapply r_defs; [x_s|]. x_in. cbv beta. x. auto. Qed.
Lemma r_push y p v t s c (Q : unit -> ctx -> Prop) : S_ true p v t s c -> (forall c', S_ true p v t s c' -> Q tt c') -> wpf (pushName y) c Q.
Proof. intros Hs HQ. unfold pushName. eapply r_names; eauto. Qed.
Lemma r_qualified y p v t s c (Q : str -> ctx -> Prop) : S_ true p v t s c -> (forall z, Q z c) -> wpf (qualifiedName y) c Q.
Proof. intros Hs HQ. unfold qualifiedName. x. auto. Qed.
Lemma line_index_err n : forall i s off, line_index n i s = inr off -> i <= off <= i + zlen s.
Proof.
  induction n as [|n IH]; intros i s off; cbn [line_index]; [discriminate|]. destruct s as [|y s]; [discriminate|].
  rewrite zlen_cons. pose proof (zlen_nonneg s). destruct (y =? 0); [discriminate|]. destruct (y <? 128).
  - destruct (line_index n (i + 1) s) eqn:E; [discriminate|]. intros [= <-]. apply IH in E. lia.
  - destruct (decode_rune (y :: s)) as [r w] eqn:D. destruct (r =? rune_error); [intros [= <-]; lia|]. intros E. apply IH in E.
    destruct (@decode_width (y :: s) r w D ltac:(discriminate)) as [W1 W2].
    assert (zlen (skipn (Z.to_nat w) (y :: s)) = 1 + zlen s - w).
    { unfold zlen in *. rewrite skipn_length. cbn [List.length] in *. unfold str in *. lia. }
    unfold str in *. lia.
Qed.
Lemma r_locate A (x : A + err) c (Q : A -> ctx -> Prop) p v t s : S_ true p v t s c ->
  (forall e, x = inr e -> (exists off, e = ParseErr off /\ 0 <= off <= L + 1) \/ exists g, e = GoPanic g) -> (forall a, x = inl a -> Q a c) -> wpf (of_sum x) c Q.
Proof.
  intros (H1 & H2 & H3 & H4 & H5 & H6 & H7) HE HQ. unfold of_sum. destruct x as [a|e]; [apply wpf_ret; auto|].
  apply wpf_throw. destruct (HE e eq_refl) as [(off & -> & K)|(g & ->)]; unfold Ep; auto.
Qed.
Lemma getLineIndex_err text off : getLineIndex text = inr off -> 0 <= off <= zlen text.
Proof. unfold getLineIndex. destruct (line_index _ _ _) eqn:E; [discriminate|]. intros [= <-]. apply line_index_err in E. lia. Qed.
Lemma lineForOffset_err y e : lineForOffset T y = inr e -> (exists off, e = ParseErr off /\ 0 <= off <= L + 1) \/ exists g, e = GoPanic g.
Proof. unfold lineForOffset. destruct (getLineIndex T) eqn:E; [discriminate|]. intros [= <-]. apply getLineIndex_err in E. left. eexists. split; [reflexivity|]. unfold LT. lia. Qed.
Lemma posOnLine_err y e : posOnLine T y = inr e -> (exists off, e = ParseErr off /\ 0 <= off <= L + 1) \/ exists g, e = GoPanic g.
Proof.
  unfold posOnLine. destruct (getLineIndex T) eqn:E.
  - destruct (_ <? 1); [intros [= <-]; eauto|]. destruct (_ =? _); [discriminate|]. cbv zeta. destruct (zlen T <? y); destruct (_ <? _); try discriminate; intros [= <-]; eauto.
  - intros [= <-]. apply getLineIndex_err in E. left. eexists. split; [reflexivity|]. unfold LT. lia.
Qed.
Lemma node_text_err y e : node_text T y = inr e -> (exists off, e = ParseErr off /\ 0 <= off <= L + 1) \/ exists g, e = GoPanic g.
Proof. unfold node_text. destruct (_ && _ && _); [discriminate|]. intros [= <-]. eauto. Qed.
Lemma r_commas es p v t s c (Q : unit -> ctx -> Prop) : S_ true p v t s c -> Q tt c -> wpf (check_commas es) c Q.
Proof.
  intros Hs HQ. induction es as [|e es IH]; cbn [check_commas]; [x; exact HQ|]. destruct e; try exact IH.
  destruct elements as [|f l]; [x|]. cbv zeta. x. eapply r_locate; [x_s|apply lineForOffset_err|]. intros li Hli. cbv beta. x.
  eapply r_locate; [x_s|apply posOnLine_err|]. intros co Hco. cbv beta. eapply r_throwAt; [x_s|exact Hli|exact Hco].
Qed.
Lemma r_transform es p v t s c (Q : list expr -> ctx -> Prop) : S_ true p v t s c -> (forall l, Q l c) -> wpf (transformCalls es) c Q.
Proof.
  intros Hs HQ. unfold transformCalls. destruct es as [|m es]; [x; auto|]. destruct (transform_from m es) as [r b]. x.
  x_case; [eapply r_commas; [x_s|]|]; x; auto.
Qed.
Lemma r_shape e p v t s c (Q : shape -> ctx -> Prop) : S_ true p v t s c -> (forall y, Q y c) -> wpf (resourceShape e) c Q.
Proof.
  intros Hs HQ. unfold resourceShape. destruct e; try (x; apply HQ). match goal with |- context [match ?e with EQRef _ _ => _ | _ => _ end] => destruct e end; try (x; apply HQ).
  x. eapply r_locate; [x_s|apply node_text_err|]. intros y _. cbv beta. x. apply HQ.
Qed.
Lemma r_value_expr p v t s c (Q : expr -> ctx -> Prop) : S_ true p v t s c -> (forall e, good T e -> qname e = false -> Q e c) -> wpf value_expr c Q.
Proof. intros Hs HQ. unfold value_expr. x. match goal with H : VOk _ ?v |- _ => destruct v end; x. destruct H. auto. Qed.
Lemma r_pop' p v t s c (Q : unit -> ctx -> Prop) : S_ true p v t s c -> (forall c', S_ true p v t s c' -> Q tt c') -> wpf popName c Q.
Proof. apply r_pop. Qed.
End Pure.

(** ** Calls *)
Section Calls.
Variables (T : str) (n : nat) (rec : forall A, fn A -> M A).
Hypothesis Hrec : respects T n rec.
Notation L := (LT T).
Notation AM := (AM T).
Variables (q0 : st) (r0 : Z).
Hypotheses (O0 : okq T q0) (R0 : 5 <= r0).
Definition BC : Z := 100 * (AM - aq T q0) + r0.
Notation wpf := (wpf (Ep T) (Z.of_nat n + 1 < BC)).
Notation rel := (rel T q0).

Lemma nt_facts b q q' : okq T q -> rel b q -> okq T q' -> kq T q <= kq T q' -> (qt q' <> TEnd -> kq T q < kq T q') -> vq q q' -> kq T q <= rq T q' ->
  rel b q' /\ (qt q <> TEnd -> rel true q').
Proof.
  intros H1 H2 H3 H4 H5 H6 H7.
  assert (A: aq T q + weight (qt q) <= aq T q').
  { unfold aq. destruct (tok_eqb (qt q') TEnd) eqn:E.
    - apply tok_eqb_eq in E. rewrite E. change (weight TEnd) with 0. lia.
    - pose proof (weight_range (qt q')). assert (qt q' <> TEnd) by (intros K; rewrite K in E; discriminate). specialize (H5 H0). lia. }
  pose proof (weight_range (qt q)). split.
  - eapply rel_ge; eauto. unfold geq. repeat split; auto; lia.
  - intros Ht. pose proof (weight_pos Ht). eapply rel_more; eauto. unfold moreq. repeat split; auto; lia.
Qed.
Lemma r_nt_raw b p v t s c (Q : unit -> ctx -> Prop) :
  S_ T b p v t s c -> rngs T p v s -> aq T q0 <= 3 * ky T p v + 2 ->
  (forall q', okq T q' -> ky T p v <= kq T q' -> (qt q' <> TEnd -> ky T p v < kq T q') -> vnext p v (qv q') -> ky T p v <= rq T q' ->
     forall c', Sq T q' c' -> Q tt c') ->
  wpf (rec FNextToken) c Q.
Proof.
  intros Hs R HB HQ. eapply (r_nextToken Hrec); [exact Hs|exact R|unfold BC; lia|].
  intros p' v' t' s' (P1 & P2 & P3 & P4) P5 P6 c' Hs'. eapply (HQ (mkst p' v' t' s')); eauto.
Qed.
Lemma c_nt0 b q c (Q : unit -> ctx -> Prop) :
  Sq T q c -> rel b q -> (forall q' c', rel b q' -> (qt q <> TEnd -> rel true q') -> Sq T q' c' -> Q tt c') -> wpf (rec FNextToken) c Q.
Proof.
  intros Hs R HQ. pose proof R as (O & (G & _) & _). eapply r_nt_raw; [exact Hs|exact O| |].
  - fold (kq T q). pose proof (weight_range (qt q)). unfold aq in *. lia.
  - intros q' O' K1 K2 K3 K4 c' Hs'. destruct (@nt_facts b q q' O R O' K1 K2 K3 K4). eapply HQ; eauto.
Qed.
Lemma c_nt b q c (Q : unit -> ctx -> Prop) :
  Sq T q c -> rel b q -> (b = false -> qt q <> TEnd) -> (forall q' c', rel true q' -> Sq T q' c' -> Q tt c') -> wpf (rec FNextToken) c Q.
Proof.
  intros Hs R HT HQ. eapply c_nt0; eauto. intros q' c' R1 R2 Hs'. eapply HQ; eauto. destruct b; auto.
Qed.
(** a call of another function *)
Lemma r_call A (f : fn A) b q c (Q : A -> ctx -> Prop) :
  is_lexer f = false -> rank f < 100 -> gives f = true ->
  Sq T q c -> rel b q -> (b = false -> rank f < r0) -> args_ok T f c ->
  (forall a q' c', okq T q' -> Sq T q' c' -> of_ctx c = q -> of_ctx c' = q' -> post T f c a c' -> Q a c') -> wpf (rec f) c Q.
Proof.
  intros HL Hr Hg Hs R HB HA HQ. pose proof R as (O & (G & _) & GT). assert (OC := Sq_okc Hs O). assert (E := Sq_of Hs).
  eapply wpf_bound with (B := Z.of_nat n < bound T f c); [eapply wpf_weaken; [eapply (@Hrec A f c)|]|].
  - unfold needs. rewrite HL. exact OC.
  - exact HA.
  - intros a c' [O' P]. rewrite Hg in O'. destruct (okc_Sq O') as [S1 S2]. eapply HQ; eauto.
  - unfold bound. rewrite HL. change (adv T c) with (aq T (of_ctx c)). rewrite E. unfold BC. destruct b.
    + destruct (GT eq_refl) as (G1 & _). lia.
    + specialize (HB eq_refl). lia.
Qed.

Lemma c_parse e single b q c (Q : _ -> ctx -> Prop) :
  Sq T q c -> rel b q -> (b = false -> 38 < r0) -> 
  (forall a q' c', good T a -> rel b q' -> Sq T q' c' -> Q a c') -> wpf (rec (FParse e single)) c Q.
Proof.
  intros Hs R HB HQ. eapply r_call; [reflexivity|cbn; lia|reflexivity|exact Hs|exact R|exact HB|exact Logic.I|].
  intros a q' c' O' Hs' E E' P. cbn [post] in P. destruct P as (P0 & P1).
  change (ge T c c') with (geq T (of_ctx c) (of_ctx c')) in P0. rewrite E, E' in P0.
  eapply (HQ a q' c'); [exact P1|eapply rel_ge; eauto|exact Hs'].
Qed.
Lemma c_statements e acc b q c (Q : _ -> ctx -> Prop) :
  Sq T q c -> rel b q -> (b = false -> 36 < r0) -> 
  (forall a q' c',  rel b q' -> Sq T q' c' -> Q a c') -> wpf (rec (FStatements e acc)) c Q.
Proof.
  intros Hs R HB HQ. eapply r_call; [reflexivity|cbn; lia|reflexivity|exact Hs|exact R|exact HB|exact Logic.I|].
  intros a q' c' O' Hs' E E' P0. cbn [post] in P0.
  change (ge T c c') with (geq T (of_ctx c) (of_ctx c')) in P0. rewrite E, E' in P0.
  eapply (HQ a q' c'); [eapply rel_ge; eauto|exact Hs'].
Qed.
Lemma c_commas acc b q c (Q : _ -> ctx -> Prop) :
  Sq T q c -> rel b q -> (b = false -> 5 < r0) -> 
  (forall a q' c',  rel b q' -> Sq T q' c' -> Q a c') -> wpf (rec (FCommas acc)) c Q.
Proof.
  intros Hs R HB HQ. eapply r_call; [reflexivity|cbn; lia|reflexivity|exact Hs|exact R|exact HB|exact Logic.I|].
  intros a q' c' O' Hs' E E' P0. cbn [post] in P0.
  change (ge T c c') with (geq T (of_ctx c) (of_ctx c')) in P0. rewrite E, E' in P0.
  eapply (HQ a q' c'); [eapply rel_ge; eauto|exact Hs'].
Qed.
Lemma c_expressions e p acc b q c (Q : _ -> ctx -> Prop) :
  Sq T q c -> rel b q -> (b = false -> 36 < r0) -> 
  (forall a q' c', qt q' = e -> rel b q' -> Sq T q' c' -> Q a c') -> wpf (rec (FExpressions e p acc)) c Q.
Proof.
  intros Hs R HB HQ. eapply r_call; [reflexivity|cbn; lia|reflexivity|exact Hs|exact R|exact HB|exact Logic.I|].
  intros a q' c' O' Hs' E E' P. cbn [post] in P. destruct P as (P0 & P1).
  change (ge T c c') with (geq T (of_ctx c) (of_ctx c')) in P0. rewrite E, E' in P0.
  eapply (HQ a q' c'); [rewrite <- P1, <- E'; reflexivity|eapply rel_ge; eauto|exact Hs'].
Qed.
Lemma c_relationship  b q c (Q : _ -> ctx -> Prop) :
  Sq T q c -> rel b q -> (b = false -> 34 < r0) -> 
  (forall a q' c', good T a -> rel true q' -> Sq T q' c' -> Q a c') -> wpf (rec FRelationship) c Q.
Proof.
  intros Hs R HB HQ. eapply r_call; [reflexivity|cbn; lia|reflexivity|exact Hs|exact R|exact HB|exact Logic.I|].
  intros a q' c' O' Hs' E E' P. cbn [post] in P. destruct P as (P0 & P1).
  change (more T c c') with (moreq T (of_ctx c) (of_ctx c')) in P0. rewrite E, E' in P0.
  eapply (HQ a q' c'); [exact P1|eapply rel_more; eauto|exact Hs'].
Qed.
Lemma c_relLoop e b q c (Q : _ -> ctx -> Prop) :
  Sq T q c -> rel b q -> (b = false -> 5 < r0) -> good T e ->
  (forall a q' c', good T a -> rel b q' -> Sq T q' c' -> Q a c') -> wpf (rec (FRelLoop e)) c Q.
Proof.
  intros Hs R HB HA HQ. eapply r_call; [reflexivity|cbn; lia|reflexivity|exact Hs|exact R|exact HB|exact HA|].
  intros a q' c' O' Hs' E E' P. cbn [post] in P. destruct P as (P0 & P1).
  change (ge T c c') with (geq T (of_ctx c) (of_ctx c')) in P0. rewrite E, E' in P0.
  eapply (HQ a q' c'); [exact P1|eapply rel_ge; eauto|exact Hs'].
Qed.
Lemma c_assignment  b q c (Q : _ -> ctx -> Prop) :
  Sq T q c -> rel b q -> (b = false -> 32 < r0) -> 
  (forall a q' c', good T a -> rel true q' -> Sq T q' c' -> Q a c') -> wpf (rec FAssignment) c Q.
Proof.
  intros Hs R HB HQ. eapply r_call; [reflexivity|cbn; lia|reflexivity|exact Hs|exact R|exact HB|exact Logic.I|].
  intros a q' c' O' Hs' E E' P. cbn [post] in P. destruct P as (P0 & P1).
  change (more T c c') with (moreq T (of_ctx c) (of_ctx c')) in P0. rewrite E, E' in P0.
  eapply (HQ a q' c'); [exact P1|eapply rel_more; eauto|exact Hs'].
Qed.
Lemma c_assignLoop e b q c (Q : _ -> ctx -> Prop) :
  Sq T q c -> rel b q -> (b = false -> 5 < r0) -> good T e ->
  (forall a q' c', good T a -> rel b q' -> Sq T q' c' -> Q a c') -> wpf (rec (FAssignLoop e)) c Q.
Proof.
  intros Hs R HB HA HQ. eapply r_call; [reflexivity|cbn; lia|reflexivity|exact Hs|exact R|exact HB|exact HA|].
  intros a q' c' O' Hs' E E' P. cbn [post] in P. destruct P as (P0 & P1).
  change (ge T c c') with (geq T (of_ctx c) (of_ctx c')) in P0. rewrite E, E' in P0.
  eapply (HQ a q' c'); [exact P1|eapply rel_ge; eauto|exact Hs'].
Qed.
Lemma c_expression  b q c (Q : _ -> ctx -> Prop) :
  Sq T q c -> rel b q -> (b = false -> 30 < r0) -> 
  (forall a q' c', good T a -> (qname a = true -> aq T q0 < 3 * rq T q' + 1) -> rel true q' -> Sq T q' c' -> Q a c') -> wpf (rec FExpression) c Q.
Proof.
  intros Hs R HB HQ. eapply r_call; [reflexivity|cbn; lia|reflexivity|exact Hs|exact R|exact HB|exact Logic.I|].
  intros a q' c' O' Hs' E E' P. cbn [post] in P. destruct P as (P0 & P1 & P2).
  change (more T c c') with (moreq T (of_ctx c) (of_ctx c')) in P0. rewrite E, E' in P0.
  eapply (HQ a q' c'); [exact P1|intros K; specialize (P2 K); change (adv T c) with (aq T (of_ctx c)) in P2; change (rs T c') with (rq T (of_ctx c')) in P2; rewrite E, E' in P2; destruct R as (_ & (G & _) & _); lia|eapply rel_more; eauto|exact Hs'].
Qed.
Lemma c_selectLoop e b q c (Q : _ -> ctx -> Prop) :
  Sq T q c -> rel b q -> (b = false -> 5 < r0) -> 
  (forall a q' c', (good T e -> good T a) -> (qname a = true -> qname e = true /\ q' = q) -> rel b q' -> Sq T q' c' -> Q a c') -> wpf (rec (FSelectLoop e)) c Q.
Proof.
  intros Hs R HB HQ. eapply r_call; [reflexivity|cbn; lia|reflexivity|exact Hs|exact R|exact HB|exact Logic.I|].
  intros a q' c' O' Hs' E E' P. cbn [post] in P. destruct P as (P0 & P1 & P2).
  change (ge T c c') with (geq T (of_ctx c) (of_ctx c')) in P0. rewrite E, E' in P0.
  eapply (HQ a q' c'); [exact P1|intros K; destruct (P2 K) as [K1 K2]; split; [exact K1|congruence]|eapply rel_ge; eauto|exact Hs'].
Qed.
Lemma c_level l b q c (Q : _ -> ctx -> Prop) :
  Sq T q c -> rel b q -> (b = false -> level_rank l < r0) -> 
  (forall a q' c', good T a -> (qname a = true -> aq T q0 < 3 * rq T q' + 1) -> rel true q' -> Sq T q' c' -> Q a c') -> wpf (rec (FLevel l)) c Q.
Proof.
  intros Hs R HB HQ. eapply r_call; [reflexivity|destruct l; cbn; lia|reflexivity|exact Hs|exact R|exact HB|exact Logic.I|].
  intros a q' c' O' Hs' E E' P. cbn [post] in P. destruct P as (P0 & P1 & P2).
  change (more T c c') with (moreq T (of_ctx c) (of_ctx c')) in P0. rewrite E, E' in P0.
  eapply (HQ a q' c'); [exact P1|intros K; specialize (P2 K); change (adv T c) with (aq T (of_ctx c)) in P2; change (rs T c') with (rq T (of_ctx c')) in P2; rewrite E, E' in P2; destruct R as (_ & (G & _) & _); lia|eapply rel_more; eauto|exact Hs'].
Qed.
Lemma c_levelLoop l e b q c (Q : _ -> ctx -> Prop) :
  Sq T q c -> rel b q -> (b = false -> 5 < r0) -> 
  (forall a q' c', (good T e -> good T a) -> (qname a = true -> qname e = true /\ q' = q) -> rel b q' -> Sq T q' c' -> Q a c') -> wpf (rec (FLevelLoop l e)) c Q.
Proof.
  intros Hs R HB HQ. eapply r_call; [reflexivity|cbn; lia|reflexivity|exact Hs|exact R|exact HB|exact Logic.I|].
  intros a q' c' O' Hs' E E' P. cbn [post] in P. destruct P as (P0 & P1 & P2).
  change (ge T c c') with (geq T (of_ctx c) (of_ctx c')) in P0. rewrite E, E' in P0.
  eapply (HQ a q' c'); [exact P1|intros K; destruct (P2 K) as [K1 K2]; split; [exact K1|congruence]|eapply rel_ge; eauto|exact Hs'].
Qed.
Lemma c_unary  b q c (Q : _ -> ctx -> Prop) :
  Sq T q c -> rel b q -> (b = false -> 18 < r0) -> 
  (forall a q' c', good T a -> (qname a = true -> aq T q0 < 3 * rq T q' + 1) -> rel true q' -> Sq T q' c' -> Q a c') -> wpf (rec FUnary) c Q.
Proof.
  intros Hs R HB HQ. eapply r_call; [reflexivity|cbn; lia|reflexivity|exact Hs|exact R|exact HB|exact Logic.I|].
  intros a q' c' O' Hs' E E' P. cbn [post] in P. destruct P as (P0 & P1 & P2).
  change (more T c c') with (moreq T (of_ctx c) (of_ctx c')) in P0. rewrite E, E' in P0.
  eapply (HQ a q' c'); [exact P1|intros K; specialize (P2 K); change (adv T c) with (aq T (of_ctx c)) in P2; change (rs T c') with (rq T (of_ctx c')) in P2; rewrite E, E' in P2; destruct R as (_ & (G & _) & _); lia|eapply rel_more; eauto|exact Hs'].
Qed.
Lemma c_primary  b q c (Q : _ -> ctx -> Prop) :
  Sq T q c -> rel b q -> (b = false -> 16 < r0) -> 
  (forall a q' c', good T a -> (qname a = true -> aq T q0 < 3 * rq T q' + 1) -> rel true q' -> Sq T q' c' -> Q a c') -> wpf (rec FPrimary) c Q.
Proof.
  intros Hs R HB HQ. eapply r_call; [reflexivity|cbn; lia|reflexivity|exact Hs|exact R|exact HB|exact Logic.I|].
  intros a q' c' O' Hs' E E' P. cbn [post] in P. destruct P as (P0 & P1 & P2).
  change (more T c c') with (moreq T (of_ctx c) (of_ctx c')) in P0. rewrite E, E' in P0.
  eapply (HQ a q' c'); [exact P1|intros K; specialize (P2 K); change (adv T c) with (aq T (of_ctx c)) in P2; change (rs T c') with (rq T (of_ctx c')) in P2; rewrite E, E' in P2; destruct R as (_ & (G & _) & _); lia|eapply rel_more; eauto|exact Hs'].
Qed.
Lemma c_primaryLoop e b q c (Q : _ -> ctx -> Prop) :
  Sq T q c -> rel b q -> (b = false -> 14 < r0) -> 
  (forall a q' c', (good T e -> good T a) -> (qname a = true -> qname e = true /\ q' = q) -> rel b q' -> Sq T q' c' -> Q a c') -> wpf (rec (FPrimaryLoop e)) c Q.
Proof.
  intros Hs R HB HQ. eapply r_call; [reflexivity|cbn; lia|reflexivity|exact Hs|exact R|exact HB|exact Logic.I|].
  intros a q' c' O' Hs' E E' P. cbn [post] in P. destruct P as (P0 & P1 & P2).
  change (ge T c c') with (geq T (of_ctx c) (of_ctx c')) in P0. rewrite E, E' in P0.
  eapply (HQ a q' c'); [exact P1|intros K; destruct (P2 K) as [K1 K2]; split; [exact K1|congruence]|eapply rel_ge; eauto|exact Hs'].
Qed.
Lemma c_atom  b q c (Q : _ -> ctx -> Prop) :
  Sq T q c -> rel b q -> (b = false -> 12 < r0) -> 
  (forall a q' c', good T a -> (qname a = true -> aq T q0 < 3 * rq T q' + 1) -> rel true q' -> Sq T q' c' -> Q a c') -> wpf (rec FAtom) c Q.
Proof.
  intros Hs R HB HQ. eapply r_call; [reflexivity|cbn; lia|reflexivity|exact Hs|exact R|exact HB|exact Logic.I|].
  intros a q' c' O' Hs' E E' P. cbn [post] in P. destruct P as (P0 & P1 & P2).
  change (more T c c') with (moreq T (of_ctx c) (of_ctx c')) in P0. rewrite E, E' in P0.
  eapply (HQ a q' c'); [exact P1|intros K; specialize (P2 K); change (adv T c) with (aq T (of_ctx c)) in P2; change (rs T c') with (rq T (of_ctx c')) in P2; rewrite E, E' in P2; destruct R as (_ & (G & _) & _); lia|eapply rel_more; eauto|exact Hs'].
Qed.
Lemma c_call e b q c (Q : _ -> ctx -> Prop) :
  Sq T q c -> rel b q -> (b = false -> 10 < r0) -> qt q <> TEnd ->
  (forall a q' c', (good T e -> good T a) -> qname a = false -> rel true q' -> Sq T q' c' -> Q a c') -> wpf (rec (FCall e)) c Q.
Proof.
  intros Hs R HB HA HQ. eapply r_call; [reflexivity|cbn; lia|reflexivity|exact Hs|exact R|exact HB|cbn [args_ok]; change (c_tok c) with (qt (of_ctx c)); rewrite (Sq_of Hs); exact HA|].
  intros a q' c' O' Hs' E E' P. cbn [post] in P. destruct P as (P0 & P1 & P2).
  change (more T c c') with (moreq T (of_ctx c) (of_ctx c')) in P0. rewrite E, E' in P0.
  eapply (HQ a q' c'); [exact P1|exact P2|eapply rel_more; eauto|exact Hs'].
Qed.
Lemma c_paramType  b q c (Q : _ -> ctx -> Prop) :
  Sq T q c -> rel b q -> (b = false -> 5 < r0) -> 
  (forall a q' c', good T a -> rel true q' -> Sq T q' c' -> Q a c') -> wpf (rec FParameterType) c Q.
Proof.
  intros Hs R HB HQ. eapply r_call; [reflexivity|cbn; lia|reflexivity|exact Hs|exact R|exact HB|exact Logic.I|].
  intros a q' c' O' Hs' E E' P. cbn [post] in P. destruct P as (P0 & P1).
  change (more T c c') with (moreq T (of_ctx c) (of_ctx c')) in P0. rewrite E, E' in P0.
  eapply (HQ a q' c'); [exact P1|eapply rel_more; eauto|exact Hs'].
Qed.
Lemma c_if u b q c (Q : _ -> ctx -> Prop) :
  Sq T q c -> rel b q -> (b = false -> 10 < r0) -> qt q <> TEnd ->
  (forall a q' c', good T a -> qname a = false -> rel true q' -> Sq T q' c' -> Q a c') -> wpf (rec (FIf u)) c Q.
Proof.
  intros Hs R HB HA HQ. eapply r_call; [reflexivity|cbn; lia|reflexivity|exact Hs|exact R|exact HB|cbn [args_ok]; change (c_tok c) with (qt (of_ctx c)); rewrite (Sq_of Hs); exact HA|].
  intros a q' c' O' Hs' E E' P. cbn [post] in P. destruct P as (P0 & P1 & P2).
  change (more T c c') with (moreq T (of_ctx c) (of_ctx c')) in P0. rewrite E, E' in P0.
  eapply (HQ a q' c'); [exact P1|exact P2|eapply rel_more; eauto|exact Hs'].
Qed.
Lemma c_caseOptions acc b q c (Q : _ -> ctx -> Prop) :
  Sq T q c -> rel b q -> (b = false -> 38 < r0) -> 
  (forall a q' c',  rel b q' -> Sq T q' c' -> Q a c') -> wpf (rec (FCaseOptions acc)) c Q.
Proof.
  intros Hs R HB HQ. eapply r_call; [reflexivity|cbn; lia|reflexivity|exact Hs|exact R|exact HB|exact Logic.I|].
  intros a q' c' O' Hs' E E' P0. cbn [post] in P0.
  change (ge T c c') with (geq T (of_ctx c) (of_ctx c')) in P0. rewrite E, E' in P0.
  eapply (HQ a q' c'); [eapply rel_ge; eauto|exact Hs'].
Qed.
Lemma c_resource y e form b q c (Q : _ -> ctx -> Prop) :
  Sq T q c -> rel b q -> (b = false -> 5 < r0) -> 0 <= y <= L + 1 /\ good T e /\ qt q <> TEnd ->
  (forall a q' c', good T a -> qname a = false -> rel true q' -> Sq T q' c' -> Q a c') -> wpf (rec (FResourceExpr y e form)) c Q.
Proof.
  intros Hs R HB HA HQ. eapply r_call; [reflexivity|cbn; lia|reflexivity|exact Hs|exact R|exact HB|cbn [args_ok]; change (c_tok c) with (qt (of_ctx c)); rewrite (Sq_of Hs); exact HA|].
  intros a q' c' O' Hs' E E' P. cbn [post] in P. destruct P as (P0 & P1 & P2).
  change (more T c c') with (moreq T (of_ctx c) (of_ctx c')) in P0. rewrite E, E' in P0.
  eapply (HQ a q' c'); [exact P1|exact P2|eapply rel_more; eauto|exact Hs'].
Qed.
Lemma c_bodies title acc b q c (Q : _ -> ctx -> Prop) :
  Sq T q c -> rel b q -> (b = false -> 36 < r0) -> match title with Some e => good T e | None => True end ->
  (forall a q' c',  rel b q' -> Sq T q' c' -> Q a c') -> wpf (rec (FBodies title acc)) c Q.
Proof.
  intros Hs R HB HA HQ. eapply r_call; [reflexivity|cbn; lia|reflexivity|exact Hs|exact R|exact HB|destruct title; exact HA|].
  intros a q' c' O' Hs' E E' P0. cbn [post] in P0.
  change (ge T c c') with (geq T (of_ctx c) (of_ctx c')) in P0. rewrite E, E' in P0.
  eapply (HQ a q' c'); [eapply rel_ge; eauto|exact Hs'].
Qed.
Lemma c_attrOps acc b q c (Q : _ -> ctx -> Prop) :
  Sq T q c -> rel b q -> (b = false -> 36 < r0) -> 
  (forall a q' c',  rel b q' -> Sq T q' c' -> Q a c') -> wpf (rec (FAttrOps acc)) c Q.
Proof.
  intros Hs R HB HQ. eapply r_call; [reflexivity|cbn; lia|reflexivity|exact Hs|exact R|exact HB|exact Logic.I|].
  intros a q' c' O' Hs' E E' P0. cbn [post] in P0.
  change (ge T c c') with (geq T (of_ctx c) (of_ctx c')) in P0. rewrite E, E' in P0.
  eapply (HQ a q' c'); [eapply rel_ge; eauto|exact Hs'].
Qed.
Lemma c_hostnames acc b q c (Q : _ -> ctx -> Prop) :
  Sq T q c -> rel b q -> (b = false -> 36 < r0) -> 
  (forall a q' c',  rel b q' -> Sq T q' c' -> Q a c') -> wpf (rec (FHostnames acc)) c Q.
Proof.
  intros Hs R HB HQ. eapply r_call; [reflexivity|cbn; lia|reflexivity|exact Hs|exact R|exact HB|exact Logic.I|].
  intros a q' c' O' Hs' E E' P0. cbn [post] in P0.
  change (ge T c c') with (geq T (of_ctx c) (of_ctx c')) in P0. rewrite E, E' in P0.
  eapply (HQ a q' c'); [eapply rel_ge; eauto|exact Hs'].
Qed.
Lemma c_dotted y acc b q c (Q : _ -> ctx -> Prop) :
  Sq T q c -> rel b q -> (b = false -> 5 < r0) -> 0 <= y <= L + 1 ->
  (forall a q' c', good T a -> rel true q' -> Sq T q' c' -> Q a c') -> wpf (rec (FDotted y acc)) c Q.
Proof.
  intros Hs R HB HA HQ. eapply r_call; [reflexivity|cbn; lia|reflexivity|exact Hs|exact R|exact HB|exact HA|].
  intros a q' c' O' Hs' E E' P. cbn [post] in P. destruct P as (P0 & P1).
  change (more T c c') with (moreq T (of_ctx c) (of_ctx c')) in P0. rewrite E, E' in P0.
  eapply (HQ a q' c'); [exact P1|eapply rel_more; eauto|exact Hs'].
Qed.
Lemma c_activities acc b q c (Q : _ -> ctx -> Prop) :
  Sq T q c -> rel b q -> (b = false -> 40 < r0) -> 
  (forall a q' c',  rel b q' -> Sq T q' c' -> Q a c') -> wpf (rec (FActivities acc)) c Q.
Proof.
  intros Hs R HB HQ. eapply r_call; [reflexivity|cbn; lia|reflexivity|exact Hs|exact R|exact HB|exact Logic.I|].
  intros a q' c' O' Hs' E E' P0. cbn [post] in P0.
  change (ge T c c') with (geq T (of_ctx c) (of_ctx c')) in P0. rewrite E, E' in P0.
  eapply (HQ a q' c'); [eapply rel_ge; eauto|exact Hs'].
Qed.
Lemma c_step y x z w b q c (Q : _ -> ctx -> Prop) :
  Sq T q c -> rel b q -> (b = false -> 5 < r0) -> 0 <= y <= L + 1 ->
  (forall a q' c', good T a -> rel true q' -> Sq T q' c' -> Q a c') -> wpf (rec (FStepDecl y x z w)) c Q.
Proof.
  intros Hs R HB HA HQ. eapply r_call; [reflexivity|cbn; lia|reflexivity|exact Hs|exact R|exact HB|exact HA|].
  intros a q' c' O' Hs' E E' P. cbn [post] in P. destruct P as (P0 & P1).
  change (more T c c') with (moreq T (of_ctx c) (of_ctx c')) in P0. rewrite E, E' in P0.
  eapply (HQ a q' c'); [exact P1|eapply rel_more; eauto|exact Hs'].
Qed.
Lemma c_eppLoop acc b q c (Q : _ -> ctx -> Prop) :
  Sq T q c -> rel b q -> (b = false -> 40 < r0) -> 
  (forall a q' c', good T a -> rel b q' -> Sq T q' c' -> Q a c') -> wpf (rec (FEppLoop acc)) c Q.
Proof.
  intros Hs R HB HQ. eapply r_call; [reflexivity|cbn; lia|reflexivity|exact Hs|exact R|exact HB|exact Logic.I|].
  intros a q' c' O' Hs' E E' P. cbn [post] in P. destruct P as (P0 & P1).
  change (ge T c c') with (geq T (of_ctx c) (of_ctx c')) in P0. rewrite E, E' in P0.
  eapply (HQ a q' c'); [exact P1|eapply rel_ge; eauto|exact Hs'].
Qed.
End Calls.
