(** * PosSpec: what every function of the parser does to the position

    For each tag of [fn]: when it may be called, what it leaves, and a bound
    on the depth of its calls. *)
From Verif Require Import Base Float Tokens Ast Ctx Lexer Parser Utf8Facts PosBase PosLex.
From Coq Require Import Lia ZifyBool.

(** the parts of a state that the measure looks at *)
Record st := mkst { qp : Z; qv : Z; qt : tok; qs : Z }.
Definition of_ctx (c : ctx) : st := mkst (c_pos c) (c_nls c) (c_tok c) (c_tsp c).

Section Spec.
Variable T : str.
Notation L := (LT T).
Notation S_ := (S_ T).

Definition rngs (p v s : Z) : Prop := 0 <= p <= L + 1 /\ -1 <= v <= L + 1 /\ 0 <= s <= L + 1.
Definition okc (b : bool) (c : ctx) : Prop :=
  S_ b (c_pos c) (c_nls c) (c_tok c) (c_tsp c) c /\ rngs (c_pos c) (c_nls c) (c_tsp c).
(** progress, as seen by the lexer *)
Definition prog (p v s p' v' s' : Z) : Prop :=
  rngs p' v' s' /\ ky T p v <= ky T p' v' /\ vnext p v v' /\ (ky T s v <= ky T s' v' \/ ky T p v <= ky T s' v').
Lemma prog_refl p v s : rngs p v s -> prog p v s p v s.
Proof. unfold prog, vnext, rngs. lia. Qed.
Lemma prog_trans p v s p1 v1 s1 p2 v2 s2 : 0 <= p <= L + 1 -> prog p v s p1 v1 s1 -> prog p1 v1 s1 p2 v2 s2 -> prog p v s p2 v2 s2.
Proof.
  intros Hp (R1 & K1 & V1 & T1) (R2 & K2 & V2 & T2). split; [exact R2|]. split; [lia|]. split; [|lia].
  eapply (@vn_trans T p v p1 v1 v2); eauto. apply R1.
Qed.
Lemma prog_fwd p v s p' : rngs p v s -> p <= p' <= L + 1 -> prog p v s p' v s.
Proof. intros R H. pose proof (@ky_le T p p' v). unfold prog, rngs, vnext in *. lia. Qed.
Lemma prog_none p v s : rngs p v s -> prog p v s p (-1) s.
Proof. intros R. pose proof (@ky_none T p v). pose proof (@ky_none T s v). unfold prog, rngs, vnext in *. lia. Qed.

Definition kc (c : ctx) : Z := ky T (c_pos c) (c_nls c).
Definition rs (c : ctx) : Z := ky T (c_tsp c) (c_nls c).
(** a token consumed counts, too *)
Definition adv (c : ctx) : Z := 3 * kc c + 2 - weight (c_tok c).
Definition vn (c c' : ctx) : Prop := vnext (c_pos c) (c_nls c) (c_nls c').
Definition geL (c c' : ctx) : Prop := kc c <= kc c' /\ vn c c' /\ (rs c <= rs c' \/ kc c <= rs c').
Definition ge (c c' : ctx) : Prop := adv c <= adv c' /\ vn c c' /\ (rs c <= rs c' \/ kc c <= rs c').
Definition more (c c' : ctx) : Prop := adv c < adv c' /\ vn c c' /\ kc c <= rs c'.

Lemma adv_kc c c' : adv c <= adv c' -> kc c <= kc c'.
Proof. unfold adv. pose proof (weight_range (c_tok c)). pose proof (weight_range (c_tok c')). lia. Qed.
Lemma ge_refl c : ge c c.
Proof. unfold ge, vn, vnext. lia. Qed.
Lemma more_ge c c' : more c c' -> ge c c'.
Proof. unfold more, ge. intuition lia. Qed.
Lemma vn_comp b1 b2 c c1 c2 : okc b1 c -> okc b2 c1 -> kc c <= kc c1 -> vn c c1 -> vn c1 c2 -> vn c c2.
Proof.
  intros [_ R1] [_ R2] K V1 V2. unfold vn in *. eapply (@vn_trans T (c_pos c) (c_nls c) (c_pos c1) (c_nls c1)); eauto; [apply R1|apply R2].
Qed.
Lemma ge_trans b1 b2 c c1 c2 : okc b1 c -> okc b2 c1 -> ge c c1 -> ge c1 c2 -> ge c c2.
Proof.
  intros O1 O2 (A1 & V1 & T1) (A2 & V2 & T2). pose proof (adv_kc A1). pose proof (adv_kc A2). split; [lia|]. split; [|lia].
  eapply vn_comp with (1 := O1); eauto.
Qed.
Lemma more_ge_trans b1 b2 c c1 c2 : okc b1 c -> okc b2 c1 -> more c c1 -> ge c1 c2 -> more c c2.
Proof.
  intros O1 O2 (A1 & V1 & T1) (A2 & V2 & T2). pose proof (@adv_kc c c1 ltac:(lia)). split; [lia|]. split; [|lia].
  eapply vn_comp with (1 := O1); eauto.
Qed.
Lemma ge_more_trans b1 b2 c c1 c2 : okc b1 c -> okc b2 c1 -> ge c c1 -> more c1 c2 -> more c c2.
Proof.
  intros O1 O2 (A1 & V1 & T1) (A2 & V2 & T2). pose proof (adv_kc A1). split; [lia|]. split; [|lia].
  eapply vn_comp with (1 := O1); eauto.
Qed.

(** ** The bound on the depth *)
Definition level_rank (l : level) : Z :=
  match l with LIn => 20 | LMatch => 21 | LMul => 22 | LAdd => 23 | LShift => 24 | LEqual => 25 | LCompare => 26 | LAnd => 27 | LOr => 28 end.
Definition rank (A : Type) (f : fn A) : Z :=
  match f with
  | FNextToken => 2
  | FDelim _ _ _ _ ec _ _ => if ec =? 0 then 1 else 3
  | FApply _ _ _ _ c _ _ => if c =? 0 then 1 else 3
  | FAtom => 12
  | FIf _ | FCall _ => 10
  | FPrimaryLoop _ => 14
  | FPrimary => 16
  | FUnary => 18
  | FLevel l => level_rank l
  | FExpression => 30
  | FAssignment => 32
  | FRelationship => 34
  | FExpressions _ _ _ | FStatements _ _ | FBodies _ _ | FAttrOps _ | FHostnames _ => 36
  | FParse _ _ | FCaseOptions _ => 38
  | FActivities _ | FEppLoop _ => 40
  | _ => 5
  end.
Definition AM : Z := 3 * KM L + 2.
Definition is_lexer (A : Type) (f : fn A) : bool :=
  match f with FNextToken | FDelim _ _ _ _ _ _ _ | FApply _ _ _ _ _ _ _ => true | _ => false end.
Definition bound (A : Type) (f : fn A) (c : ctx) : Z :=
  100 * (AM - (if is_lexer f then 3 * kc c + 2 else adv c)) + rank f.

Definition needs (A : Type) (f : fn A) : bool := negb (is_lexer f).
Definition gives (A : Type) (f : fn A) : bool := match f with FApply _ _ _ _ _ _ _ => false | _ => true end.

Definition args_ok (A : Type) (f : fn A) (c : ctx) : Prop :=
  match f with
  | FDelim _ ds _ _ ec st segs => 0 <= ds <= L + 1 /\ (ec <> 0 -> 1 <= c_pos c) /\ 0 <= st <= L + 1 /\ goods T segs
  | FApply _ _ _ _ r st segs => 0 <= st <= L + 1 /\ (r <> 0 -> 1 <= c_pos c) /\ goods T segs
  | FRelLoop e | FAssignLoop e => good T e
  | FCall _ | FIf _ => c_tok c <> TEnd
  | FResourceExpr st e _ => 0 <= st <= L + 1 /\ good T e /\ c_tok c <> TEnd
  | FBodies (Some e) _ => good T e
  | FDotted st _ | FStepDecl st _ _ _ => 0 <= st <= L + 1
  | _ => True
  end.
(** a name: the token may be given back *)
Definition back (c : ctx) (e : expr) (c' : ctx) : Prop := qname e = true -> adv c < 3 * rs c' + 1.
Definition post (A : Type) (f : fn A) (c : ctx) : A -> ctx -> Prop :=
  match f in fn A return A -> ctx -> Prop with
  | FNextToken => fun _ c' => kc c <= kc c' /\ (c_tok c' <> TEnd -> kc c < kc c') /\ vn c c' /\ kc c <= rs c'
  | FDelim _ _ _ _ _ _ _ => fun a c' => geL c c' /\ goods T a
  | FApply _ _ _ _ _ _ _ => fun a c' => geL c c' /\ goods T (snd a) /\ (c_tsp c' = c_tsp c \/ kc c <= rs c')
  | FParse _ _ | FEppLoop _ | FRelLoop _ | FAssignLoop _ => fun a c' => ge c c' /\ good T a
  | FStatements _ _ | FCommas _ | FBodies _ _ | FAttrOps _ | FHostnames _ | FActivities _ => fun _ c' => ge c c'
  | FCaseOptions _ => fun _ c' => ge c c'
  | FExpressions e _ _ => fun _ c' => ge c c' /\ c_tok c' = e
  | FRelationship | FAssignment | FParameterType | FDotted _ _ | FStepDecl _ _ _ _ => fun a c' => more c c' /\ good T a
  | FCall e => fun a c' => more c c' /\ (good T e -> good T a) /\ qname a = false
  | FIf _ | FResourceExpr _ _ _ => fun a c' => more c c' /\ good T a /\ qname a = false
  | FExpression | FLevel _ | FUnary | FPrimary | FAtom => fun a c' => more c c' /\ good T a /\ back c a c'
  | FSelectLoop e | FLevelLoop _ e | FPrimaryLoop e => fun a c' => ge c c' /\ (good T e -> good T a) /\ (qname a = true -> qname e = true /\ of_ctx c' = of_ctx c)
  end.
Definition respects (n : nat) (rec : forall A, fn A -> M A) : Prop :=
  forall A (f : fn A) c, okc (needs f) c -> args_ok f c ->
    wpf (Ep T) (Z.of_nat n < bound f c) (rec A f) c (fun a c' => okc (gives f) c' /\ post f c a c').

Lemma okc_S b c : okc b c -> S_ b (c_pos c) (c_nls c) (c_tok c) (c_tsp c) c. Proof. now intros []. Qed.
Lemma S_okc b p v t s c : S_ b p v t s c -> rngs p v s -> okc b c.
Proof. intros (H1 & H2 & H3 & H4 & H5 & H6 & H7) R. unfold okc, PosBase.S_. rewrite H2, H3, H5 in *. intuition. Qed.
Lemma S_kc b p v t s c : S_ b p v t s c -> kc c = ky T p v.
Proof. intros (H1 & H2 & H3 & H4 & H5 & H6 & H7). unfold kc. now rewrite H2, H3. Qed.
Lemma S_rs b p v t s c : S_ b p v t s c -> rs c = ky T s v.
Proof. intros (H1 & H2 & H3 & H4 & H5 & H6 & H7). unfold rs. now rewrite H3, H5. Qed.
Lemma S_tok b p v t s c : S_ b p v t s c -> c_tok c = t. Proof. now intros (H1 & H2 & H3 & H4 & H5 & H6 & H7). Qed.
Lemma S_pos b p v t s c : S_ b p v t s c -> c_pos c = p. Proof. now intros (H1 & H2 & H3 & H4 & H5 & H6 & H7). Qed.
Lemma S_tsp b p v t s c : S_ b p v t s c -> c_tsp c = s. Proof. now intros (H1 & H2 & H3 & H4 & H5 & H6 & H7). Qed.
Lemma S_nls b p v t s c : S_ b p v t s c -> c_nls c = v. Proof. now intros (H1 & H2 & H3 & H4 & H5 & H6 & H7). Qed.

(** ** Calls from the lexer *)
Section Calls.
Variables (n : nat) (rec : forall A, fn A -> M A) (BC : Z).
Hypothesis Hrec : respects n rec.
Notation wpf := (wpf (Ep T) (Z.of_nat n + 1 < BC)).

Lemma r_nextToken b p v t s c (Q : unit -> ctx -> Prop) :
  S_ b p v t s c -> rngs p v s -> 100 * (AM - (3 * ky T p v + 2)) + 2 < BC ->
  (forall p' v' t' s', prog p v s p' v' s' -> (t' <> TEnd -> ky T p v < ky T p' v') -> ky T p v <= ky T s' v' ->
     forall c', S_ true p' v' t' s' c' -> Q tt c') ->
  wpf (rec FNextToken) c Q.
Proof.
  intros Hs R HB HQ. pose proof (S_okc (S_weak Hs) R) as Ho.
  eapply wpf_bound with (B := Z.of_nat n < bound FNextToken c); [eapply wpf_weaken; [apply (@Hrec unit FNextToken c Ho I)|]|].
  - intros [] c' [Ho' (P1 & P2 & P3 & P4)]. cbn in Ho'. rewrite (S_kc Hs) in *. unfold vn in P3. rewrite (S_pos Hs), (S_nls Hs) in P3.
    eapply HQ; [| | |apply (okc_S Ho')].
    + split; [apply Ho'|]. split; [exact P1|]. split; [exact P3|]. right. exact P4.
    + exact P2.
    + exact P4.
  - unfold bound. cbn [is_lexer rank]. rewrite (S_kc Hs). lia.
Qed.
(** progress through other calls *)
Lemma geL_prog b b' c c' p v t s : S_ b p v t s c -> geL c c' -> okc b' c' -> prog p v s (c_pos c') (c_nls c') (c_tsp c').
Proof.
  intros Hs (P1 & P2 & P3) Ho. split; [apply Ho|]. rewrite (S_kc Hs), (S_rs Hs) in *. unfold vn in P2. rewrite (S_pos Hs), (S_nls Hs) in P2. auto.
Qed.
Lemma prog_geL b b' c c' p v t s p' v' t' s' : S_ b p v t s c -> S_ b' p' v' t' s' c' -> prog p v s p' v' s' -> geL c c'.
Proof.
  intros Hs Hs' (R & P1 & P2 & P3). unfold geL, vn. now rewrite (S_kc Hs), (S_rs Hs), (S_kc Hs'), (S_rs Hs'), (S_pos Hs), (S_nls Hs), (S_nls Hs').
Qed.
Lemma ge_geL c c' : ge c c' -> geL c c'.
Proof. intros (A1 & A2 & A3). split; [now apply adv_kc|auto]. Qed.
Lemma r_delim d ds h buf ec st segs b p v t s c (Q : option (list expr) -> ctx -> Prop) :
  S_ b p v t s c -> rngs p v s -> 0 <= ds <= L + 1 -> (ec <> 0 -> 1 <= p) -> 0 <= st <= L + 1 -> goods T segs ->
  100 * (AM - (3 * ky T p v + 2)) + (if ec =? 0 then 1 else 3) < BC ->
  (forall a p' v' t' s', goods T a -> prog p v s p' v' s' -> forall c', S_ true p' v' t' s' c' -> Q a c') ->
  wpf (rec (FDelim d ds h buf ec st segs)) c Q.
Proof.
  intros Hs R H1 H1' H2 H3 HB HQ. pose proof (S_okc (S_weak Hs) R) as Ho.
  eapply wpf_bound with (B := Z.of_nat n < bound (FDelim d ds h buf ec st segs) c); [eapply wpf_weaken; [apply (@Hrec _ (FDelim d ds h buf ec st segs) c Ho)|]|].
  - cbn. rewrite (S_pos Hs). auto.
  - intros a c' [Ho' (P1 & P2)]. eapply HQ; [exact P2|eapply geL_prog; eauto|apply (okc_S Ho')].
  - unfold bound. cbn [is_lexer rank]. rewrite (S_kc Hs). lia.
Qed.
Lemma r_apply e i fl bld r st segs b p v t s c (Q : str * option (list expr) -> ctx -> Prop) :
  S_ b p v t s c -> rngs p v s -> 0 <= st <= L + 1 -> (r <> 0 -> 1 <= p) -> goods T segs ->
  100 * (AM - (3 * ky T p v + 2)) + (if r =? 0 then 1 else 3) < BC ->
  (forall a p' v' t' s', goods T (snd a) -> prog p v s p' v' s' -> s' = s \/ ky T p v <= ky T s' v' -> forall c', S_ false p' v' t' s' c' -> Q a c') ->
  wpf (rec (FApply e i fl bld r st segs)) c Q.
Proof.
  intros Hs R H1 H2 H3 HB HQ. pose proof (S_okc (S_weak Hs) R) as Ho.
  eapply wpf_bound with (B := Z.of_nat n < bound (FApply e i fl bld r st segs) c); [eapply wpf_weaken; [apply (@Hrec _ (FApply e i fl bld r st segs) c Ho)|]|].
  - cbn. rewrite (S_pos Hs). auto.
  - intros a c' [Ho' (P1 & P2 & P3)]. eapply HQ; [exact P2|eapply geL_prog; eauto| |apply (okc_S Ho')].
    rewrite (S_kc Hs), (S_tsp Hs) in P3. exact P3.
  - unfold bound. cbn [is_lexer rank]. rewrite (S_kc Hs). lia.
Qed.
Lemma r_parse e single p v t s c (Q : expr -> ctx -> Prop) :
  S_ true p v t s c -> rngs p v s -> 100 * (AM - 3 * ky T p v) + 38 < BC ->
  (forall a p' v' t' s', good T a -> prog p v s p' v' s' -> forall c', S_ true p' v' t' s' c' -> Q a c') ->
  wpf (rec (FParse e single)) c Q.
Proof.
  intros Hs R HB HQ. pose proof (S_okc Hs R) as Ho.
  eapply wpf_bound with (B := Z.of_nat n < bound (FParse e single) c); [eapply wpf_weaken; [apply (@Hrec _ (FParse e single) c Ho I)|]|].
  - intros a c' [Ho' (P1 & P2)]. eapply HQ; [exact P2|eapply geL_prog; eauto using ge_geL|apply (okc_S Ho')].
  - unfold bound, adv. cbn [is_lexer rank]. rewrite (S_kc Hs). pose proof (weight_range (c_tok c)). lia.
Qed.
End Calls.
End Spec.
