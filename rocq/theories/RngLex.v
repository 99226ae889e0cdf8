(** * RngLex: the lexer *)
From Verif Require Import Base Float Tokens Ast Ctx Locator Lexer Parser Wp RngBase RngSpec.
From Coq Require Import Lia ZifyBool.

Section Loops.
Variable T : str.
Variable o : opts.
Notation L := (zlen T). Notation Sr := (Sr T o). Notation wp := (wp Er). Notation look := (look T).

Lemma skipWhite_r p t s v c (Q : Z * Z -> ctx -> Prop) : Sr p t s v c ->
  (forall ch start w c', p <= start -> look start ch w -> Sr (start + w) t s v c' -> Q (ch, start) c') -> wp (skipWhite false) c Q.
Proof.
  intros HS HQ. unfold skipWhite. eapply wp_while with (I := fun _ c' => exists p', p <= p' /\ Sr p' t s v c'); [exists p; split; [lia|assumption]|].
  intros [cs csp] c0 (p0 & Hp & HS0). r_rng. clear HS. unfold skipWhite_step. repeat first [r1|r_case].
  all: try (match goal with HS : Sr ?x _ _ _ ?c |- exists _, _ => exists x; split; [lia|assumption] end).
  all: eapply HQ; [|eassumption|eassumption]; lia.
Qed.

Lemma skip_while_r p t s v c f (Q : Z * (Z * Z) -> ctx -> Prop) : Sr p t s v c ->
  (forall n p' ch w c', p <= p' -> look p' ch w -> f ch = false -> Sr p' t s v c' -> Q (n, (ch, w)) c') -> wp (skip_while f) c Q.
Proof.
  intros HS HQ. unfold skip_while. eapply wp_while with (I := fun _ c' => exists p', p <= p' /\ Sr p' t s v c'); [exists p; split; [lia|assumption]|].
  intros n c0 (p0 & Hp & HS0). r_rng. clear HS. r. destruct (f r) eqn:F; r.
  - match goal with HS : Sr ?x _ _ _ ?c |- exists _, _ => exists x; split; [lia|assumption] end.
  - eapply HQ; [|eassumption| |eassumption]; [lia|assumption].
Qed.
Lemma skipDecimalDigits_r p t s v c (Q : Z -> ctx -> Prop) : Sr p t s v c ->
  (forall n p' c', p <= p' -> Sr p' t s v c' -> Q n c') -> wp skipDecimalDigits c Q.
Proof.
  intros HS HQ. unfold skipDecimalDigits. r. eapply wp_weaken with (Q := fun _ c' => exists p', p <= p' /\ Sr p' t s v c').
  - r_case; r; eexists; (split; [|eassumption]); lia.
  - intros _ c0 (p0 & Hp & HS0). clear HS. r. eapply skip_while_r; [eassumption|r_in]. r. eapply HQ; [|eassumption]. lia.
Qed.
Lemma digits_or_fail_r p t s v c (Q : unit -> ctx -> Prop) : Sr p t s v c ->
  (forall p' c', p <= p' -> Sr p' t s v c' -> Q tt c') -> wp digits_or_fail c Q.
Proof.
  intros HS HQ. unfold digits_or_fail. r. eapply skipDecimalDigits_r; [eassumption|r_in]. r_case; r. eapply HQ; [|eassumption]. lia.
Qed.
Lemma dash_scan_r p t s v c i0 (Q : bool -> ctx -> Prop) : Sr p t s v c -> p <= i0 <= L ->
  (forall b p' c', p <= p' -> Sr p' t s v c' -> Q b c') -> wp (dash_scan i0) c Q.
Proof.
  intros HS Hi HQ. unfold dash_scan. r_rng. eapply wp_while with (I := fun i c' => p <= i <= L /\ Sr p t s v c'); [split; assumption|].
  intros i c0 (Hi0 & HS0). clear HS. repeat first [r1|r_case].
  - eapply HQ; [|eassumption]. lia.
  - split; [lia|assumption].
  - eapply HQ; [|eassumption]. lia.
Qed.
Lemma qualifiedName_loop_r p t s v c start token (Q : bool -> ctx -> Prop) : Sr p t s v c -> 
  (forall b p' c', p <= p' -> Sr p' t s v c' -> Q b c') -> wp (while (qualifiedName_step start token) (false, false)) c Q.
Proof.
  intros HS HQ. eapply wp_while with (I := fun _ c' => exists p', p <= p' /\ Sr p' t s v c'); [exists p; split; [lia|assumption]|].
  intros [lu hd] c0 (p0 & Hp & HS0). r_rng. clear HS. unfold qualifiedName_step. r. eapply skip_while_r; [eassumption|r_in].
  destruct ((ch =? "-"%ch) && tok_eqb token TIdentifier).
  - r. eapply dash_scan_r; [eassumption|lia|r_in]. destruct b; r; [eexists; split; [|eassumption]; lia|eapply HQ; [|eassumption]; lia].
  - repeat first [r1|r_case].
    all: first [eexists; split; [|eassumption]; lia|eapply HQ; [|eassumption]; lia].
Qed.
(** a token was set *)
Definition tokened (lo p : Z) (s : Z) (Q : unit -> ctx -> Prop) : Prop :=
  forall p' t' v' c', p <= p' -> Sr p' t' s v' c' -> VR lo p' p' t' s v' -> Q tt c'.
Lemma VR_int lo p t s z : 0 <= lo -> lo <= s <= p -> t <> TVariable -> VR lo p p t s (VInt z).
Proof. intros. unfold VR. repeat (split; [lia|]). congruence. Qed.
Lemma VR_str lo p t s x : 0 <= lo -> lo <= s <= p -> t <> TVariable -> VR lo p p t s (VStr x).
Proof. intros. unfold VR. repeat (split; [lia|]). congruence. Qed.
Lemma VR_var lo p t s x : 0 <= lo -> lo <= s <= p -> s + 1 + zlen x <= p -> VR lo p p t s (VStr x).
Proof. intros. unfold VR. repeat (split; [lia|]). intros. assumption. Qed.
Lemma VR_num lo p t s x : 0 <= lo -> lo <= s <= p -> s + 1 <= p -> VR lo p p t s (VInt x).
Proof. intros. unfold VR. repeat (split; [lia|]). intros. assumption. Qed.
Lemma VR_other lo p t s v : 0 <= lo -> lo <= s <= p -> (match v with VExpr _ | VInt _ | VStr _ => false | _ => true end) = true -> VR lo p p t s v.
Proof. intros. unfold VR. repeat (split; [lia|]). destruct v; auto; discriminate. Qed.
Lemma VR_expr lo p t s e : 0 <= lo -> lo <= s <= p -> within lo p e -> p <= eend e -> VR lo p p t s (VExpr e).
Proof. intros. unfold VR. repeat (split; [lia|]). auto. Qed.
End Loops.
Ltac vr := first [eapply VR_str; [lia|lia|discriminate] | eapply VR_var; lia | eapply VR_var; [lia|lia|unfold zlen; cbn [List.length]; lia] | eapply VR_int; [lia|lia|discriminate] | eapply VR_num; lia | eapply VR_other; [lia|lia|reflexivity]].
Ltac tk HQ := eapply HQ; [|eassumption|try solve [vr]]; [lia|..].

Section Loops2.
Variable T : str.
Variable o : opts.
Notation L := (zlen T). Notation Sr := (Sr T o). Notation wp := (wp Er). Notation look := (look T). Notation tokened := (tokened T o).

Lemma consumeQualifiedName_r lo p t s v c token (Q : unit -> ctx -> Prop) : Sr p t s v c -> 0 <= lo <= s -> s + 1 <= p -> tokened lo p s Q ->
  wp (consumeQualifiedName s token) c Q.
Proof.
  intros HS Hlo Hs HQ. unfold consumeQualifiedName. r. eapply qualifiedName_loop_r; [eassumption|r_in]. r. { destruct (tok_eqb token TVariable); lia. }
  destruct (tok_eqb token TIdentifier) eqn:E.
  - apply tok_eqb_eq in E. subst token. destruct b; r; [tk HQ|].
    destruct (kw_lookup y) as [k|] eqn:K; [|r; tk HQ].
    assert (NV: k <> TVariable).
    { intros ->. revert K. unfold kw_lookup. clear. cbn. repeat match goal with |- context [if ?b then _ else _] => destruct b; [discriminate|] end. discriminate. }
    destruct k; try congruence; r; tk HQ.
    destruct (o_tasks o); (eapply VR_str; [lia|lia|discriminate]).
  - r. tk HQ. destruct (tok_eqb token TVariable) eqn:E2.
    + eapply VR_var; lia.
    + eapply VR_str; [lia|lia|]. intros ->. discriminate.
Qed.
Lemma consumeFloat_r lo p t s v c d (Q : unit -> ctx -> Prop) : Sr p t s v c -> 0 <= lo <= s -> s <= p -> tokened lo p s Q ->
  wp (consumeFloat s d) c Q.
Proof.
  intros HS Hlo Hs HQ. unfold consumeFloat. r. eapply digits_or_fail_r; [eassumption|r_in]. r.
  eapply wp_weaken with (Q := fun _ c' => exists p', p <= p' /\ Sr p' t s v c').
  - r_case; r; [eapply digits_or_fail_r; [eassumption|r_in]; r|]; eexists; (split; [|eassumption]); lia.
  - intros ch c1 (p1 & Hp1 & HS1). r_clr. r_rng. r. r_case; r. tk HQ.
Qed.
Lemma appendHexadec_r p t s v c buf (Q : str -> ctx -> Prop) : Sr p t s v c -> 
  (forall b p' c', p <= p' -> Sr p' t s v c' -> Q b c') -> wp (appendHexadec buf) c Q.
Proof.
  intros HS HQ. unfold appendHexadec. r. eapply wp_weaken with (Q := fun _ c' => exists p', p <= p' /\ Sr p' t s v c').
  - repeat first [r1|r_case]; eexists; (split; [|eassumption]); lia.
  - intros _ c1 (p1 & Hp1 & HS1). r_clr. r_rng. r. eapply HQ; [|eassumption]. lia.
Qed.
Lemma appendUnicode_r p t s v c buf (Q : str -> ctx -> Prop) : Sr p t s v c -> 
  (forall b p' c', p <= p' -> Sr p' t s v c' -> Q b c') -> wp (appendUnicode buf) c Q.
Proof.
  intros HS HQ. unfold appendUnicode, unicode_digit. r. r_case.
  - repeat first [r1|r_case]. eapply HQ; [|eassumption]. lia.
  - r_case; [r|]. r. eapply skip_while_r; [eassumption|r_in]. r. cbv zeta. r_case; r. eapply HQ; [|eassumption]. lia.
Qed.
Lemma handle_escape_r p t s v c h buf ec (Q : str -> ctx -> Prop) : Sr p t s v c -> 
  (forall b p' c', p <= p' -> Sr p' t s v c' -> Q b c') -> wp (handle_escape h buf ec) c Q.
Proof.
  intros HS HQ. unfold handle_escape. r_rng. repeat first [r1|r_case].
  all: first [eapply HQ; [|eassumption]; lia | eapply appendUnicode_r; eassumption | eapply appendHexadec_r; eassumption].
Qed.
Lemma consumeBacktickedString_r lo p t s v c (Q : unit -> ctx -> Prop) : Sr p t s v c -> 0 <= lo <= s -> s <= p -> tokened lo p s Q ->
  wp consumeBacktickedString c Q.
Proof.
  intros HS Hlo Hs HQ. unfold consumeBacktickedString. r. eapply skip_while_r; [eassumption|r_in]. r_case; r. tk HQ.
Qed.
Lemma lex_number_r lo p t s v c (Q : unit -> ctx -> Prop) : Sr p t s v c -> 0 <= lo <= s -> s <= p -> tokened lo p s Q ->
  wp (lex_number s) c Q.
Proof.
  intros HS Hlo Hs HQ. unfold lex_number. r. eapply skipDecimalDigits_r; [eassumption|r_in]. r. r_case; r.
  - eapply consumeFloat_r; [eassumption|eassumption|lia|]. intros ? ? ? ? ? ? ?. eapply HQ; [|eassumption|eassumption]. lia.
  - r_case; r. tk HQ.
Qed.
Lemma lex_zero_r lo p t s v c (Q : unit -> ctx -> Prop) : Sr p t s v c -> 0 <= lo <= s -> s <= p -> tokened lo p s Q ->
  wp (lex_zero s) c Q.
Proof.
  intros HS Hlo Hs HQ. unfold lex_zero. r. r_case; [r; tk HQ|]. r_case; [|r_case].
  - r. eapply skip_while_r; [eassumption|r_in]. r. r_case; r. tk HQ.
  - r. eapply consumeFloat_r; [eassumption|eassumption|lia|]. intros ? ? ? ? ? ? ?. eapply HQ; [|eassumption|eassumption]. lia.
  - r. eapply skip_while_r; [eassumption|r_in]. r. r_case; r. r_case; r; tk HQ.
Qed.
Lemma lex_variable_r lo p t s v c (Q : unit -> ctx -> Prop) : Sr p t s v c -> 0 <= lo <= s -> s + 1 <= p -> tokened lo p s Q ->
  wp (lex_variable s) c Q.
Proof.
  intros HS Hlo Hs HQ. unfold lex_variable. r.
  eapply wp_weaken with (Q := fun x c' => exists p', p <= p' /\ look p' (fst x) (snd x) /\ Sr p' t s v c').
  - r_case; r; [r_case; r|]; eexists; (split; [|split; [cbn [fst snd]; eassumption|eassumption]]); lia.
  - intros [ch w0] c0 (p0 & Hp & HL & HS0). cbn [fst snd] in HL. r_clr. z_look. r_rng.
    r_case; [|r_case]; r.
    + eapply consumeQualifiedName_r; [eassumption|eassumption|lia|]. intros ? ? ? ? ? ? ?. eapply HQ; [|eassumption|eassumption]. lia.
    + eapply skipDecimalDigits_r; [eassumption|r_in]. r. tk HQ.
    + r_case; r. tk HQ. 
Qed.
Lemma lex_paren_r lo p t s v c (Q : unit -> ctx -> Prop) : Sr p t s v c -> 0 <= lo <= s -> s <= p -> tokened lo p s Q ->
  wp (lex_paren s) c Q.
Proof.
  intros HS Hlo Hs HQ. unfold lex_paren. r. apply wp_modify. cbv beta.
  assert (H : wp (skipWhite false) (with_pos (c_bol c) c) (fun _ c' => exists p', Sr p t s v (with_pos p c') /\ c' = with_pos p' (with_pos p c'))).
  { destruct (Z.le_gt_cases (c_bol c) L).
    - assert (HS' : Sr (c_bol c) t s v (with_pos (c_bol c) c)).
      { destruct HS as (H1 & H2 & H3 & H4 & H5 & H6 & H7 & H8 & H9 & HD). unfold RngBase.Sr. cbn. repeat (split; [first [assumption|lia|reflexivity]|]). assumption. }
      eapply skipWhite_r; [exact HS'|]. intros ch st w c1 _ _ HS1. exists (st + w).
      pose proof (Sr_range HS). destruct HS1 as (H1 & H2 & H3 & H4 & H5 & H6 & H7 & H8 & H9 & HD). split.
      + unfold RngBase.Sr. cbn. repeat (split; [first [assumption|lia|reflexivity]|]). assumption.
      + destruct c1. cbn in *. subst. reflexivity.
    - unfold skipWhite, while, Wp.wp, loop_fuel. rewrite Nat.add_comm. cbn [Nat.add loop]. unfold skipWhite_step, bind at 1. unfold bind at 1. unfold next, rune_at, len.
      destruct HS as (H1 & H2 & H3 & H4 & H5 & H6 & H7 & H8 & H9 & HD).
      cbn [c_text c_pos with_pos]. rewrite H1. rewrite (proj2 (Z.leb_le L (c_bol c))) by lia. cbn. exists (c_bol c + 0). split.
      + unfold RngBase.Sr. cbn. repeat (split; [first [assumption|lia|reflexivity]|]). assumption.
      + destruct c. cbn in *. subst. reflexivity. }
  apply wp_bind. eapply wp_weaken; [exact H|]. intros [ch st] c1 (p1 & HS1 & E). cbv beta iota. apply wp_bind.
  assert (E2: with_pos p c1 = with_pos p (with_pos p1 (with_pos p c1))) by (rewrite <- E; reflexivity).
  apply wp_modify. clear HS H. r. tk HQ. 
Qed.
Lemma lex_colon_r lo p t s v c (Q : unit -> ctx -> Prop) : Sr p t s v c -> 0 <= lo <= s -> s + 1 <= p -> tokened lo p s Q ->
  wp (lex_colon s) c Q.
Proof.
  intros HS Hlo Hs HQ. unfold lex_colon. r_rng. r. r_case; r; [|tk HQ]. r_case; [|r_case].
  all: try exact Logic.I.
  all: (eapply consumeQualifiedName_r; [eassumption|eassumption|lia|]); intros ? ? ? ? ? ? ?; (eapply HQ; [|eassumption|eassumption]); lia.
Qed.
Lemma op_token_r lo p t s v c alts d (Q : unit -> ctx -> Prop) : Sr p t s v c -> 0 <= lo <= s -> s <= p -> tokened lo p s Q ->
  (wp d c Q) -> wp (op_token alts d) c Q.
Proof.
  intros HS Hlo Hs HQ Hd. unfold op_token. r. induction alts as [|[x t1] alts IH]; cbn [op_choice]; [exact Hd|].
  destruct (r =? x); [|exact IH]. r. tk HQ. 
Qed.
Lemma lex_pipe_r lo p t s v c (Q : unit -> ctx -> Prop) : Sr p t s v c -> 0 <= lo <= s -> s <= p -> tokened lo p s Q ->
  wp lex_pipe c Q.
Proof.
  intros HS Hlo Hs HQ. unfold lex_pipe. r_rng. r. r_case; r.
  - eapply op_token_r; [eassumption|eassumption|lia| |r; tk HQ]. intros ? ? ? ? ? ? ?. eapply HQ; [|eassumption|eassumption]. lia.
  - r_case; r; [tk HQ|]. eapply skipWhite_r; [eassumption|r_in]. r. r_case; r; tk HQ.
Qed.
Lemma epp_comment_r p t s v c prev (Q : bool -> ctx -> Prop) : Sr p t s v c ->
  (forall b p' c', p <= p' -> Sr p' t s v c' -> Q b c') -> wp (epp_comment prev) c Q.
Proof.
  intros HS HQ. unfold epp_comment. eapply wp_while with (I := fun _ c' => exists p', p <= p' /\ Sr p' t s v c'); [exists p; split; [lia|assumption]|].
  intros pr c0 (p0 & Hp & HS0). clear HS. r_rng. repeat first [r1|r_case].
  all: first [eexists; split; [|eassumption]; lia | eapply HQ; [|eassumption]; lia].
Qed.
End Loops2.

Ltac zn := unfold spanned, eend, byteOffset, byteLength in *; cbn [epos p_off p_len] in *; lia.

Section Rec.
Variable T : str.
Variable o : opts.
Variable rec : forall A, fn A -> M A.
Hypothesis REC : ranged T o rec.
Hypothesis NOHERE : ~ heredoc T.
Notation L := (zlen T). Notation Sr := (Sr T o). Notation wp := (wp Er). Notation look := (look T). Notation tokened := (tokened T o).

Definition token_at (lo p : Z) (Q : unit -> ctx -> Prop) : Prop :=
  forall p' t' s' v' c', p <= p' -> Sr p' t' s' v' c' -> VR lo p' p' t' s' v' -> Q tt c'.
Lemma nextToken_r lo p t s v c (Q : unit -> ctx -> Prop) : Sr p t s v c -> 0 <= lo <= p ->
  (forall p' t' s' v' c', p <= p' -> p <= s' -> Sr p' t' s' v' c' -> VR lo p' p' t' s' v' -> Q tt c') -> wp (rec FNextToken) c Q.
Proof.
  intros HS Hlo HQ. eapply wp_weaken; [eapply (@REC _ FNextToken lo p p t s v c); [exact HS|discriminate|exact Hlo]|].
  intros [] c' (p' & t' & s' & v' & HS' & Hp & HG & HR). eapply HQ; [exact Hp|exact HR|exact HS'|exact (HG eq_refl)].
Qed.
Lemma fparse_r lo q p t s v c e b (Q : expr -> ctx -> Prop) : Sr p t s v c -> VR lo q p t s v ->
  (forall a p' t' s' v' c', p <= p' -> Sr p' t' s' v' c' -> within lo p' a -> q <= eend a -> Q a c') -> wp (rec (FParse e b)) c Q.
Proof.
  intros HS HV HQ. eapply wp_weaken; [eapply (@REC _ (FParse e b) lo q p t s v c); [exact HS|intros _; exact HV|exact Logic.I]|].
  intros a c' (p' & t' & s' & v' & HS' & Hp & HG & HR1 & HR2). eapply HQ; eassumption.
Qed.
Lemma named_within start lo hi : 0 <= start -> start + 1 <= lo -> forall n e, (height e < n)%nat -> within lo hi e ->
  match convertNamedAccessLHS e start with Some (x, _) => within start hi x | None => True end.
Proof.
  intros H0 Hs. induction n as [|n IH]; intros e Hn He; [lia|].
  destruct e; try exact Logic.I. destruct k; try exact Logic.I.
  pose proof (within_span He) as HS. pose proof (within_children He) as HC. cbn [children] in HC. inversion HC as [|x1 l1 HC1 HC2]; subst. inversion HC2 as [|x2 l2 HC3 HC4]; subst. clear HC HC2 HC4.
  assert (M : forall e', within lo hi e' -> within start hi e') by (intros e' X; eapply within_mono; [exact X|lia|lia]).
  assert (Hmk: forall x, within start hi x -> within start hi (EBin (mkpos start (p_len p + 1)) KNamedAccess [] x e2)).
  { intros x Hx. apply within_node; [zn|]. constructor; [exact Hx|]. constructor; [auto|constructor]. }
  cbn [convertNamedAccessLHS]. destruct e1; try (exact (M _ He)).
  - (* EAccess *) apply Hmk. pose proof (within_span HC1). pose proof (within_children HC1) as HK. cbn [children] in HK. inversion HK as [|y1 k1 HK1 HK2]; subst.
    destruct e1; try (exact (M _ HC1)). pose proof (within_span HK1).
    apply within_node; [zn|]. constructor; [|eapply withins_mono; [exact HK2|lia|lia]].
    apply within_node; [zn|]. constructor; [auto|constructor].
  - (* EBin *) destruct k; try (exact (M _ He)).
    match goal with |- context [convertNamedAccessLHS ?y start] => pose proof (IH y) as IH1; destruct (convertNamedAccessLHS y start) as [[x b]|]; [|exact Logic.I]; apply Hmk, IH1; [|exact HC1];
      pose proof (@child_height (EBin p KNamedAccess op y e2) y (or_introl eq_refl)); lia end.
  - (* call *) pose proof (within_span HC1) as HS1. pose proof (within_children HC1) as HK. cbn [children] in HK. inversion HK as [|y1 k1 HK1 HK2]; subst.
    match goal with |- context [convertNamedAccessLHS ?y start] => pose proof (IH y) as IH1; destruct (convertNamedAccessLHS y start) as [[x b]|]; [|exact Logic.I] end.
    apply Hmk. apply within_node; [zn|]. cbn [children]. constructor; [|eapply withins_mono; [exact HK2|lia|lia]].
    apply IH1; [|exact HK1].
    match goal with |- (height ?f < n)%nat => match type of HC1 with within _ _ ?cm => pose proof (@child_height cm f (or_introl eq_refl)); pose proof (@child_height (EBin p KNamedAccess op cm e2) cm (or_introl eq_refl)); lia end end.
  - apply Hmk. pose proof (within_span HC1) as HS1. apply within_node; [zn|]. constructor; [auto|constructor].
Qed.
Lemma interpolate_r lo p t s v c start (Q : expr -> ctx -> Prop) : Sr p t s v c -> 0 <= lo <= start -> start + 1 <= p ->
  (forall e p' t' s' v' c', p <= p' -> Sr p' t' s' v' c' -> within lo p' e -> Q e c') -> wp (interpolate rec start) c Q.
Proof.
  intros HS Hlo Hs HQ. unfold interpolate. r. r_case.
  - r. assert (w = 1) as -> by (destruct H as (_ & _ & _ & X); apply X; lia).
    eapply nextToken_r with (lo := p + 1); [eassumption|lia|r_in]. r. eapply fparse_r; [eassumption|eassumption|r_in]. r.
    eapply wp_weaken with (Q := fun e' c' => within start p'0 e' /\ Sr p'0 t'0 s'0 v'0 c').
    + match goal with X : within _ _ a |- _ => rename X into HW end. pose proof (within_span HW) as SP.
      assert (M : forall e', within (p + 1) p'0 e' -> within start p'0 e') by (intros e' X; eapply within_mono; [exact X|lia|lia]).
      destruct a; try (apply wp_ret; split; [exact (M _ HW)|eassumption]).
      * destruct a; try (apply wp_ret; split; [exact (M _ HW)|eassumption]). apply wp_ret. split; [|eassumption].
        pose proof (within_children HW) as HK. cbn [children] in HK. inversion HK as [|y1 k1 HK1 HK2]; subst. pose proof (within_span HK1).
        apply within_node; [zn|]. constructor; [|eapply withins_mono; [exact HK2|lia|lia]].
        apply within_node; [zn|]. constructor; [auto|constructor].
      * destruct a; try (apply wp_ret; split; [exact (M _ HW)|eassumption]). destruct k; try (apply wp_ret; split; [exact (M _ HW)|eassumption]).
        pose proof (within_children HW) as HK. cbn [children] in HK. inversion HK as [|y1 k1 HK1 HK2]; subst.
        pose proof (@named_within start (p + 1) p'0 ltac:(lia) ltac:(lia) _ _ (Nat.lt_succ_diag_r _) HK1) as X.
        destruct convertNamedAccessLHS as [[f' [|]]|]; [|apply wp_ret; split; [exact (M _ HW)|eassumption]|exact Logic.I].
        apply wp_ret. split; [|eassumption]. apply within_node; [zn|]. cbn [children]. constructor; [exact X|eapply withins_mono; [exact HK2|lia|lia]].
      * apply wp_ret. split; [|eassumption]. apply within_node; [zn|]. constructor; [exact (M _ HW)|constructor].
    + intros e' c9 (He & HS'). r_clr. r. eapply HQ; [|eassumption|]; [lia|]. apply within_node; [zn|].
      constructor; [eapply within_mono; [exact He|lia|lia]|constructor].
  - r. apply wp_weaken with (Q := fun _ c' => exists p' t' s' v', p <= p' /\ Sr p' t' s' v' c').
    + r_case; r; [eapply nextToken_r with (lo := p); [eassumption|lia|r_in]|]; do 4 eexists; (split; [|eassumption]); lia.
    + intros _ c1 (p1 & t1 & s1 & v1 & Hp1 & HS1). r_clr. r_rng. r. r_case; r. destruct v1; r; try exact Logic.I. eapply HQ; [|eassumption|]; [lia|].
      repeat (apply within_node; [zn|]; cbn [children]; constructor; [|constructor]).
      apply within_node; [zn|]. constructor.
Qed.
Lemma handleInterpolation_r lo p t s v c start segs buf (Q : list expr -> ctx -> Prop) : Sr p t s v c -> 0 <= lo <= start -> start + 1 <= p -> lo <= s <= p ->
  Forall (within lo p) segs ->
  (forall l p' t' s' v' c', p <= p' -> lo <= s' <= p' -> Sr p' t' s' v' c' -> Forall (within lo p') l -> Q l c') -> wp (handleInterpolation rec start segs buf) c Q.
Proof.
  intros HS Hlo Hst Hs HF HQ. unfold handleInterpolation. r. cbv zeta. r. eapply interpolate_r; [eassumption|eassumption|lia|r_in].
  r. eapply HQ; [| |eassumption|]; [lia|lia|]. apply withins_snoc; [|assumption]. destruct buf; [eapply withins_mono; [exact HF|lia|lia]|].
  apply withins_snoc; [eapply withins_mono; [exact HF|lia|lia]|]. apply within_node; [zn|constructor].
Qed.

Lemma delim_rec_r lo p t s v c d ds h buf ec start segs (Q : option (list expr) -> ctx -> Prop) : Sr p t s v c ->
  0 <= lo -> lo <= start <= p -> (ec <> 0 -> start < p) -> lo <= s <= p -> owithins lo p segs ->
  (forall a p' t' s' v' c', p <= p' -> Sr p' t' s' v' c' -> VR lo p' p' t' s' v' -> owithins lo p' a -> (segs = None -> s' = s) -> Q a c') ->
  wp (rec (FDelim d ds h buf ec start segs)) c Q.
Proof.
  intros HS H1 H2 H3 H4 H5 HQ. eapply wp_weaken; [eapply (@REC _ (FDelim d ds h buf ec start segs) lo p p t s v c); [exact HS|discriminate|]|].
  - cbn [args_ok]. repeat (split; [assumption|]). assumption.
  - intros a c' (p' & t' & s' & v' & HS' & Hp & HG & HR1 & HR2). eapply HQ; try eassumption. apply HG. reflexivity.
Qed.
Lemma owithins_mono lo hi hi' a : owithins lo hi a -> hi <= hi' -> owithins lo hi' a.
Proof. destruct a; cbn; [|auto]. intros. eapply withins_mono; eauto. lia. Qed.
Lemma delim_body_r lo p t s v c d ds h buf ec start segs (Q : option (list expr) -> ctx -> Prop) : Sr p t s v c ->
  0 <= lo -> lo <= start <= p -> (ec <> 0 -> start < p) -> lo <= s <= p -> owithins lo p segs ->
  (forall a p' t' s' v' c', p <= p' -> Sr p' t' s' v' c' -> VR lo p' p' t' s' v' -> owithins lo p' a -> (segs = None -> s' = s) -> Q a c') ->
  wp (delim_body rec d ds h buf ec start segs) c Q.
Proof.
  intros HS H1 H2 H3 H4 H5 HQ. r_rng. unfold delim_body. cbv zeta.
  assert (K : forall p1 v1 t1 c1 b1 ec1, Sr p1 t1 s v1 c1 -> p <= p1 -> start < p1 -> wp (rec (FDelim d ds h b1 ec1 start segs)) c1 Q).
  { intros p1 v1 t1 c1 b1 ec1 HS1 Hp1 Hp2. eapply delim_rec_r with (lo := lo); [exact HS1|assumption|lia|lia|lia|eapply owithins_mono; [eassumption|lia]|].
    intros. eapply HQ; [|eassumption|eassumption|eassumption|eassumption]. lia. }
  assert (LI : start < p -> wp ('(ec', _) <- next;; rec (FDelim d ds h (buf ++ encode_rune ec) ec' start segs)) c Q).
  { intros. r. eapply K; [eassumption|lia|lia]. }
  r_case.
  - r_case; r. eapply HQ; [|eassumption| | |]; [lia|vr|assumption|auto].
  - r_case; [|r_case; [|r_case]].
    + r. eapply HQ; [|eassumption| | |]; [lia|vr|assumption|auto].
    + r. r_case; [r|]. r_case; r.
      * eapply K; [eassumption|lia|lia].
      * eapply handle_escape_r; [eassumption|r_in]. r. eapply K; [eassumption|lia|lia].
    + destruct segs as [ss|]; [|apply LI; lia]. r. eapply handleInterpolation_r with (lo := lo); [eassumption|split; [eassumption|lia]|lia|assumption|exact H5|r_in]. r.
      eapply delim_rec_r with (lo := lo); [eassumption|assumption|lia|lia|lia|cbn [owithins]; eapply withins_mono; [eassumption|lia|lia]|].
      intros. eapply HQ; [|eassumption|eassumption|eassumption|]; [lia|discriminate].
    + apply LI. lia.
Qed.
Lemma consumeDelimitedString_r lo p t s v c d ds h segs (Q : option (list expr) -> ctx -> Prop) : Sr p t s v c ->
  0 <= lo -> lo <= s <= p -> owithins lo p segs ->
  (forall a p' t' s' v' c', p <= p' -> Sr p' t' s' v' c' -> VR lo p' p' t' s' v' -> owithins lo p' a -> (segs = None -> s' = s) -> Q a c') ->
  wp (consumeDelimitedString rec d ds segs h) c Q.
Proof.
  intros HS H1 H2 H5 HQ. unfold consumeDelimitedString. r. eapply delim_rec_r with (lo := lo); [eassumption|assumption|lia|lia|lia|eapply owithins_mono; [eassumption|lia]|].
  intros. eapply HQ; [|eassumption|eassumption|eassumption|eassumption]. lia.
Qed.
Lemma consumeSingle_r lo p t s v c (Q : unit -> ctx -> Prop) : Sr p t s v c -> 0 <= lo -> lo <= s <= p -> token_at lo p Q ->
  wp (consumeSingleQuotedString rec) c Q.
Proof.
  intros HS H1 H2 HQ. unfold consumeSingleQuotedString. r. eapply consumeDelimitedString_r with (lo := lo); [eassumption|eassumption|lia|exact Logic.I|r_in].
  r. eapply HQ; [|eassumption|eassumption]. lia.
Qed.
Lemma VR_tok lo q p t t' s v : VR lo q p t s v -> t' <> TVariable -> VR lo q p t' s v.
Proof. intros (H1 & H2 & H3 & H4) N. repeat (split; [assumption|]). destruct v; auto; congruence. Qed.
Lemma consumeRegexp_r lo p t s v c (Q : bool -> ctx -> Prop) : Sr p t s v c -> 0 <= lo -> lo <= s <= p ->
  (forall p' t' s' v' c', p <= p' -> Sr p' t' s' v' c' -> VR lo p' p' t' s' v' -> Q true c') ->
  (forall t' v' c', Sr p t' s v' c' -> Q false c') ->
  wp (consumeRegexp rec) c Q.
Proof.
  intros HS H1 H2 HQ HQ2. unfold consumeRegexp. r. eapply consumeDelimitedString_r with (lo := lo); [eassumption|eassumption|lia|exact Logic.I|r_in].
  r. r_case; r.
  - eapply HQ; [|eassumption|]; [lia|]. eapply VR_tok; [eassumption|discriminate].
  - match goal with X : None = None -> _ |- _ => specialize (X eq_refl); subst end. eapply HQ2. eassumption.
Qed.
Lemma consumeDouble_r lo p t s v c (Q : unit -> ctx -> Prop) : Sr p t s v c -> 0 <= lo -> lo <= s <= p -> token_at lo p Q ->
  wp (consumeDoubleQuotedString rec) c Q.
Proof.
  intros HS H1 H2 HQ. unfold consumeDoubleQuotedString. r.
  eapply consumeDelimitedString_r with (lo := lo); [eassumption|eassumption|lia|destruct (o_factory o); cbn [owithins]; [constructor|exact Logic.I]|r_in].
  destruct (o_factory o) eqn:F; cbn [negb]; r; [|eapply HQ; [|eassumption|eassumption]; lia].
  unfold value_string. r. destruct v'; r; try exact Logic.I. cbv zeta.
  match goal with |- wp (match ?l with [] => _ | _ => _ end) _ _ => assert (HF : Forall (within lo p') l); [|generalize dependent l; intros zs HF] end.
  { match goal with HV : VR _ _ _ _ _ _ |- _ => pose proof (VR_range HV) end.
    assert (W : within lo p' (EString (mkpos s' (p' - s')) s0)) by (apply within_node; [zn|constructor]).
    destruct a as [[|x xs]|]; try (constructor; [exact W|constructor]).
    destruct s0; [assumption|]. change (Forall (within lo p') ((x :: xs) ++ [EString (mkpos s' (p' - s')) (z :: s0)])). apply withins_snoc; assumption. }
  destruct zs as [|y ys]; [exact Logic.I|].
  match goal with HV : VR _ _ _ _ _ _ |- _ => pose proof (VR_range HV) end.
  assert (D : wp (settokenValue TConcatenatedString (VExpr (EConcat (mkpos (byteOffset y) (p' - byteOffset y)) (y :: ys)))) c' Q).
  { inversion HF as [|x1 l1 HF1 HF2]; subst. pose proof (within_span HF1). r. eapply HQ; [|eassumption|]; [lia|]. eapply VR_expr; [lia|lia| |].
    - apply within_node; [zn|]. exact HF.
    - zn. }
  destruct y; try exact D. destruct ys; [|exact D]. r. eapply HQ; [|eassumption|eassumption]. lia.
Qed.
Lemma epp_step_r p t s v st c : Sr p t s v c ->
  wp (epp_step st) c (fun r c' => exists p' t' v', Sr p' t' s v' c' /\ p <= p' /\
     match r with inl _ => True | inr again => (t' = TEnd /\ v' = VNil) \/ (t' = TRenderString /\ exists x, v' = VStr x) end).
Proof.
  intros HS. r_rng. unfold epp_step. cbv zeta. repeat first [r1|r_case].
  all: try (do 3 eexists; split; [eassumption|split; [lia|first [exact Logic.I|left; split; reflexivity|right; split; [reflexivity|eexists; reflexivity]]]]).
  eapply epp_comment_r; [eassumption|r_in]. repeat first [r1|r_case].
  do 3 eexists; split; [eassumption|split; [lia|exact Logic.I]].
Qed.
Lemma consumeEPP_r p t s v c (Q : unit -> ctx -> Prop) : Sr p t s v c -> 
  (forall p' t' v' c', p <= p' -> Sr p' t' s v' c' -> (t' = TEnd /\ v' = VNil) \/ (t' = TRenderString /\ exists x, v' = VStr x) -> Q tt c') ->
  token_at p p Q -> wp (consumeEPP rec) c Q.
Proof.
  intros HS HQ1 HQ2. unfold consumeEPP. r. r_rng.
  eapply wp_while with (I := fun _ c' => exists p' t' v', p <= p' /\ Sr p' t' s v' c'); [exists p, t, v; split; [lia|assumption]|].
  intros st c1 (p1 & t1 & v1 & Hp1 & HS1). clear HS. eapply wp_weaken; [eapply epp_step_r; exact HS1|].
  intros [st'|again] c2 (p2 & t2 & v2 & HS2 & Hp2 & H9).
  - exists p2, t2, v2. split; [lia|assumption].
  - destruct again.
    + r_rng. eapply nextToken_r with (lo := p); [eassumption|lia|r_in]. eapply HQ2; [|eassumption|eassumption]. lia.
    + r. eapply HQ1; [|eassumption|eassumption]. lia.
Qed.
Lemma consumeEPP_in lo p t s v c (Q : unit -> ctx -> Prop) : Sr p t s v c -> 0 <= lo -> lo <= s <= p -> token_at lo p Q -> wp (consumeEPP rec) c Q.
Proof.
  intros HS H1 H2 HQ. r_rng. eapply consumeEPP_r; [eassumption| |].
  - intros p' t' v' c' Hp HS' [[-> ->]|[-> [x ->]]]; (eapply HQ; [|eassumption|]); [lia|vr|lia|vr].
  - intros p' t' s' v' c' Hp HS' HV. eapply HQ; [|eassumption|]; [lia|]. pose proof (VR_range HV). eapply VR_low; [exact HV|lia|lia].
Qed.
Lemma tokened_at lo p p0 s Q : token_at lo p Q -> p <= p0 -> tokened lo p0 s Q.
Proof. intros HQ Hp p' t' v' c' H1 H2 H3. eapply HQ; [|eassumption|eassumption]. lia. Qed.
Lemma token_at_from lo p p0 Q : token_at lo p Q -> p <= p0 -> token_at lo p0 Q.
Proof. intros HQ Hp p' t' s' v' c' H1 H2 H3. eapply HQ; [|eassumption|eassumption]. lia. Qed.
Lemma nextToken_at lo p t s v c (Q : unit -> ctx -> Prop) : Sr p t s v c -> 0 <= lo <= p -> token_at lo p Q -> wp (rec FNextToken) c Q.
Proof. intros HS Hlo HQ. eapply nextToken_r; [eassumption|eassumption|]. intros. eapply HQ; [|eassumption|eassumption]. lia. Qed.
Ltac tka HQ := eapply HQ; [|eassumption|try solve [vr]]; [lia|..].
Lemma lex_minus_r lo p t s v c (Q : unit -> ctx -> Prop) : Sr p t s v c -> 0 <= lo -> lo <= s <= p -> token_at lo p Q -> wp (lex_minus rec) c Q.
Proof.
  intros HS H1 H2 HQ. unfold lex_minus. repeat first [r1|r_case]; try solve [tka HQ].
  eapply skip_while_r; [eassumption|r_in]. r. eapply wp_weaken with (Q := fun _ c' => exists p', p <= p' /\ Sr p' t s v c').
  - r_case; r; eexists; (split; [|eassumption]); lia.
  - intros _ c9 (p9 & Hp9 & HS9). r_clr. r_rng. eapply consumeEPP_in with (lo := lo); [eassumption|lia|lia|eapply token_at_from; [eassumption|lia]].
Qed.
Lemma lex_percent_r lo p t s v c (Q : unit -> ctx -> Prop) : Sr p t s v c -> 0 <= lo -> lo <= s <= p -> token_at lo p Q -> wp (lex_percent rec) c Q.
Proof.
  intros HS H1 H2 HQ. unfold lex_percent. repeat first [r1|r_case]; try solve [tka HQ].
  eapply consumeEPP_in with (lo := lo); [eassumption|lia|lia|eapply token_at_from; [eassumption|lia]].
Qed.
Lemma lex_less_r lo p t s v c (Q : unit -> ctx -> Prop) : Sr p t s v c -> 0 <= lo -> lo <= s <= p -> token_at lo p Q -> wp (lex_less rec) c Q.
Proof.
  intros HS H1 H2 HQ. unfold lex_less. repeat first [r1|r_case]; try solve [tka HQ].
  - eapply op_token_r with (lo := lo); [eassumption|lia|lia|eapply tokened_at; [eassumption|lia]|]. r. tka HQ.
  - eapply nextToken_at with (lo := lo); [eassumption| |eapply token_at_from; [eassumption|]]; lia.
  - eapply nextToken_at with (lo := lo); [eassumption| |eapply token_at_from; [eassumption|]]; lia.
Qed.
Lemma lex_at_r lo p t s v c (Q : unit -> ctx -> Prop) : Sr p t s v c -> 0 <= lo -> lo <= s <= p -> chr T (p - 1) "@"%ch -> token_at lo p Q -> wp (lex_at rec) c Q.
Proof.
  intros HS H1 H2 HA HQ. unfold lex_at. r. destruct (r =? "@"%ch); [r; tka HQ|]. destruct (r =? "("%ch) eqn:E; [|r; tka HQ].
  exfalso. apply NOHERE. apply Z.eqb_eq in E. subst r. apply chr_heredoc with (p := p - 1); [exact HA|].
  destruct H as (_ & _ & _ & X). destruct X as [_ X]; [change ("("%ch) with 40; lia|]. replace (p - 1 + 1) with p by lia. exact X.
Qed.
Lemma lex_token_r lo p t s v c scan ch w (Q : unit -> ctx -> Prop) : Sr p t s v c -> p = s + w -> look s ch w -> 0 <= lo <= s -> token_at lo p Q ->
  wp (lex_token rec scan s ch) c Q.
Proof.
  intros HS Hp HL Hlo HQ. r_rng. z_look. unfold lex_token.
  assert (HT : forall p0 s0, p <= p0 -> tokened lo p0 s0 Q) by (intros; eapply tokened_at; eauto).
  assert (NZ : forall lo0 c0 hi0, in_range lo0 c0 hi0 = true -> 0 < lo0 -> c0 <> 0) by (intros lo0 c0 hi0 X Y ->; unfold in_range in X; lia).
  destruct (in_range _ _ _) eqn:E1. { eapply lex_number_r with (lo := lo); [eassumption|lia|lia|apply HT; lia]. }
  assert (CN : forall tk, ch <> 0 -> wp (consumeQualifiedName s tk) c Q) by (intros; eapply consumeQualifiedName_r with (lo := lo); [eassumption|lia|lia|apply HT; lia]).
  destruct (isUppercaseLetter ch) eqn:E2. { apply CN. eapply NZ; [exact E2|reflexivity]. }
  destruct (isLowercaseLetter ch) eqn:E3. { apply CN. eapply NZ; [exact E3|reflexivity]. }
  destruct (ch =? 0) eqn:E0; [r; tka HQ|].
  assert (SI : forall tk, wp (setToken tk) c Q) by (intros; r; tka HQ).
  assert (OP : forall al d, wp d c Q -> wp (op_token al d) c Q) by (intros; eapply op_token_r with (lo := lo); [eassumption|lia|lia|apply HT; lia|assumption]).
  repeat match goal with
  | |- wp (if ?b then _ else _) _ _ =>
    destruct b eqn:?; [solve [apply SI | apply OP, SI | apply OP; exact Logic.I | r; apply SI
      | eapply lex_paren_r with (lo := lo); [eassumption|lia|lia|apply HT; lia]
      | eapply lex_colon_r with (lo := lo); [eassumption|lia|lia|apply HT; lia]
      | eapply lex_pipe_r with (lo := lo); [eassumption|lia|lia|apply HT; lia]
      | eapply lex_variable_r with (lo := lo); [eassumption|lia|lia|apply HT; lia]
      | eapply lex_zero_r with (lo := lo); [eassumption|lia|lia|apply HT; lia]
      | eapply lex_minus_r with (lo := lo); [eassumption|lia|lia|assumption]
      | eapply lex_percent_r with (lo := lo); [eassumption|lia|lia|assumption]
      | eapply lex_less_r with (lo := lo); [eassumption|lia|lia|assumption]
      | eapply consumeDouble_r with (lo := lo); [eassumption|lia|lia|assumption]
      | eapply consumeSingle_r with (lo := lo); [eassumption|lia|lia|assumption]
      | r; (match goal with |- wp (if ?bb then _ else _) _ _ => destruct bb end); [|exact Logic.I]; eapply consumeBacktickedString_r with (lo := lo); [eassumption|lia|lia|apply HT; lia]
      | r; (match goal with |- wp (if ?bb then _ else _) _ _ => destruct bb end); [|apply SI]; r; eapply consumeRegexp_r with (lo := lo); [eassumption|lia|lia| |];
          [intros; r; eapply HQ; [|eassumption|eassumption]; lia|intros; r; tka HQ]
      | eapply lex_at_r with (lo := lo); [eassumption|lia|lia| |assumption]; 
          match goal with X : (ch =? "@"%ch) = true |- _ => apply Z.eqb_eq in X; subst ch end; destruct HL as (_ & _ & _ & X); destruct X as [X1 X2]; [change ("@"%ch) with 64; lia|]; subst w; replace (p - 1) with s by lia; exact X2]|]
  end.
  exact Logic.I.
Qed.
Lemma nextToken_body_r lo p t s v c (Q : unit -> ctx -> Prop) : Sr p t s v c -> 0 <= lo <= p ->
  (forall p' t' s' v' c', p <= p' -> p <= s' -> Sr p' t' s' v' c' -> VR lo p' p' t' s' v' -> Q tt c') -> wp (nextToken_body rec) c Q.
Proof.
  intros HS Hlo HQ. unfold nextToken_body. r. eapply skipWhite_r; [eassumption|r_in]. r.
  eapply lex_token_r with (lo := p); [eassumption|reflexivity|eassumption|lia|].
  intros p1 t1 s1 v1 c5 Hp1 HS1 HV1. pose proof (VR_range HV1). eapply HQ; [| |eassumption|]; [lia|lia|]. eapply VR_low; [exact HV1|lia|lia].
Qed.
End Rec.
