(** * PosTok: the lexer ends, and only makes progress *)
From Verif Require Import Base Float Tokens Ast Ctx Lexer Parser Utf8Facts PosBase PosLex PosSpec.
From Coq Require Import Lia ZifyBool.

Lemma F1 (P : expr -> Prop) x : P x -> Forall P [x]. Proof. auto. Qed.

Section Tok.
Variables (T : str) (n : nat) (rec : forall A, fn A -> M A).
Hypothesis Hrec : respects T n rec.
Notation L := (LT T).
Notation S_ := (S_ T).

Section BC.
Variable BC : Z.
Notation wpf := (wpf (Ep T) (Z.of_nat n + 1 < BC)).
Notation AM := (AM T).

Lemma r_interpolate st b p v t s c (Q : expr -> ctx -> Prop) :
  S_ b p v t s c -> rngs T p v s -> 0 <= st <= L + 1 -> 100 * (AM - (3 * ky T p v + 2)) + 2 < BC ->
  (forall a p' v' t' s', good T a -> prog T p v s p' v' s' -> forall c', S_ true p' v' t' s' c' -> Q a c') ->
  wpf (interpolate rec st) c Q.
Proof.
  intros Hs R Hst HB HQ. pose proof R as (R1 & R2 & R3). unfold interpolate. x. x_case.
  - x_nz r. assert (Hk: ky T p v < ky T (p + w) v) by (apply ky_lt; zz).
    assert (P1: prog T p v s (p + w) v s) by (apply prog_fwd; [exact R|zz]).
    x. eapply (r_nextToken Hrec); [x_s|apply P1|lia|]. intros p1 v1 t1 s1 P2 E2 E3. x_in. cbv beta iota. x.
    assert (P3 := prog_trans R1 P1 P2).
    eapply (r_parse Hrec); [x_s|apply P3|destruct P2; lia|]. intros a p2 v2 t2 s2 Ga P4. x_in. cbv beta iota. x.
    assert (P5 := prog_trans R1 P3 P4).
    repeat (x_case; x); (eapply HQ; [|exact P5|eassumption]; zz).
  - x. x_case.
    + eapply (r_nextToken Hrec); [x_s|exact R|lia|]. intros p1 v1 t1 s1 P2 E2 E3. x_in. cbv beta iota. x.
      x_case; x; x_case; x; (eapply HQ; [|exact P2|eassumption]; zz).
    + x. change (negb (tok_eqb TVariable TIdentifier)) with true. cbv iota. x.
Qed.

Lemma r_handleInterpolation st segs buf b p v t s c (Q : list expr -> ctx -> Prop) :
  S_ b p v t s c -> rngs T p v s -> 0 <= st <= L + 1 -> Forall (good T) segs -> 100 * (AM - (3 * ky T p v + 2)) + 2 < BC ->
  (forall a p' v' t' s', Forall (good T) a -> prog T p v s p' v' s' -> s' = p' -> forall c', S_ true p' v' t' s' c' -> Q a c') ->
  wpf (handleInterpolation rec st segs buf) c Q.
Proof.
  intros Hs R Hst Hg HB HQ. pose proof R as (R1 & R2 & R3). unfold handleInterpolation. x.
  eapply r_interpolate; [x_s|exact R|exact Hst|exact HB|]. intros a p1 v1 t1 s1 Ga P1. x_in. cbv beta iota. x.
  eapply r_tsp_pos; [x_s|x_in]. cbv beta iota. x. eapply HQ; [| |reflexivity|eassumption].
  - apply Forall_app. split; [|apply F1; exact Ga]. destruct buf; [exact Hg|]. apply Forall_app. split; [exact Hg|]. apply F1; zz.
  - destruct P1 as (Q1 & Q2 & Q3 & Q4). unfold rngs in Q1. unfold prog, rngs. repeat split; try lia; auto.
Qed.

(** a round of a string's loop leads to the next *)
Lemma next_key p p1 v v1 r w : 0 <= p1 <= L + 1 -> seen T p1 r w -> ky T p v <= ky T p1 v1 ->
  ky T p v <= ky T (p1 + w) v1 /\ (r <> 0 -> ky T p v < ky T (p1 + w) v1).
Proof.
  intros H1 H2 H3. pose proof (@ky_le T p1 (p1 + w) v1) as K1. pose proof (@ky_lt T p1 (p1 + w) v1) as K2. split.
  - assert (ky T p1 v1 <= ky T (p1 + w) v1) by (apply K1; zz). lia.
  - intros Hr. assert (ky T p1 v1 < ky T (p1 + w) v1) by (apply K2; zz). lia.
Qed.
Lemma prog_step p v s p1 v1 s1 w : rngs T p v s -> prog T p v s p1 v1 s1 -> 0 <= w -> p1 + w <= L + 1 -> prog T p v s (p1 + w) v1 s1.
Proof.
  intros R P Hw Hw'. eapply prog_trans; [apply R|exact P|]. apply prog_fwd; [apply P|]. lia.
Qed.
Lemma seen_step p r w : seen T p r w -> 0 <= p <= L + 1 -> 0 <= w /\ p + w <= L + 1 /\ (r <> 0 -> 1 <= p + w).
Proof. zz. Qed.

Section Delim.
Variables (d ds : Z) (h : handler) (p v s : Z).
Hypotheses (R : rngs T p v s) (Hds : 0 <= ds <= L + 1) (HB : 100 * (AM - (3 * ky T p v + 2)) + 3 <= BC).
(** [continue] after a [next] *)
Lemma r_delim_next buf st segs b p1 v1 t1 s1 c (Q : option (list expr) -> ctx -> Prop) :
  S_ b p1 v1 t1 s1 c -> prog T p v s p1 v1 s1 -> 0 <= st <= L + 1 -> goods T segs ->
  (forall a p' v' t' s', goods T a -> prog T p v s p' v' s' -> forall c', S_ true p' v' t' s' c' -> Q a c') ->
  wpf ('(ec', _) <- next ;; rec (FDelim d ds h buf ec' st segs)) c Q.
Proof.
  intros Hs P Hst Hg HQ. pose proof R as (R1 & R2 & R3). pose proof P as ((Q1 & Q2 & Q3) & P2 & P3 & P4).
  x. rename H into Hsee. destruct (seen_step Hsee Q1) as (W1 & W2 & W3). destruct (@next_key p p1 v v1 r w Q1 Hsee P2) as [W4 W5].
  assert (P' := prog_step R P W1 W2). eapply (r_delim Hrec); [x_s|apply P'|exact Hds|exact W3|exact Hst|exact Hg| |].
  - destruct (Z.eqb_spec r 0); [lia|]. specialize (W5 n0). lia.
  - intros a p' v' t' s' Ga Pa. x_in. eapply HQ; [exact Ga| |eassumption]. eapply prog_trans; [exact R1|exact P'|exact Pa].
Qed.
Lemma r_delim_next2 buf segs b p1 v1 t1 s1 c (Q : option (list expr) -> ctx -> Prop) :
  S_ b p1 v1 t1 s1 c -> prog T p v s p1 v1 s1 -> goods T segs ->
  (forall a p' v' t' s', goods T a -> prog T p v s p' v' s' -> forall c', S_ true p' v' t' s' c' -> Q a c') ->
  wpf ('(ec', st) <- next ;; rec (FDelim d ds h buf ec' st segs)) c Q.
Proof.
  intros Hs P Hg HQ. pose proof R as (R1 & R2 & R3). pose proof P as ((Q1 & Q2 & Q3) & P2 & P3 & P4).
  x. rename H into Hsee. destruct (seen_step Hsee Q1) as (W1 & W2 & W3). destruct (@next_key p p1 v v1 r w Q1 Hsee P2) as [W4 W5].
  assert (P' := prog_step R P W1 W2). eapply (r_delim Hrec); [x_s|apply P'|exact Hds|exact W3|exact Q1|exact Hg| |].
  - destruct (Z.eqb_spec r 0); [lia|]. specialize (W5 n0). lia.
  - intros a p' v' t' s' Ga Pa. x_in. eapply HQ; [exact Ga| |eassumption]. eapply prog_trans; [exact R1|exact P'|exact Pa].
Qed.
End Delim.

Lemma r_delim_body d ds h buf ec st segs b p v t s c (Q : option (list expr) -> ctx -> Prop) :
  S_ b p v t s c -> rngs T p v s -> 0 <= ds <= L + 1 -> (ec <> 0 -> 1 <= p) -> 0 <= st <= L + 1 -> goods T segs ->
  100 * (AM - (3 * ky T p v + 2)) + (if ec =? 0 then 1 else 3) <= BC ->
  (forall a p' v' t' s', goods T a -> prog T p v s p' v' s' -> forall c', S_ true p' v' t' s' c' -> Q a c') ->
  wpf (delim_body rec d ds h buf ec st segs) c Q.
Proof.
  intros Hs R H1 H2 H3 H4 HB HQ. pose proof R as (R1 & R2 & R3). assert (P0 := prog_refl R). unfold delim_body. cbv zeta.
  destruct (Z.eqb_spec ec 0).
  { x_case; [eapply r_unterminated; [x_s|zz]|]. x. eapply HQ; eauto. }
  specialize (H2 n0).
  x_case; [x; eapply HQ; eauto|]. x_case.
  { apply wpf_bind. x. rename H into Hsee. destruct (seen_step Hsee R1) as (W1 & W2 & W3). destruct (@next_key p p v v r w R1 Hsee ltac:(lia)) as [W4 W5].
    assert (P' := prog_step R P0 W1 W2).
    x_case; [eapply r_unterminated; [x_s|zz]|]. x_case.
    { eapply r_delim_next; eauto. }
    apply wpf_bind. eapply r_handle_escape; [x_s|zz|]. intros buf' p' Hp'. x_in.
    eapply r_delim_next; eauto. replace p' with (p + w + (p' - p - w)) by lia. eapply prog_step; [exact R|exact P'|lia|]. zz. }
  x_case.
  { destruct segs as [ss|]; [|eapply r_delim_next; eauto].
    apply wpf_bind. eapply r_handleInterpolation; [x_s|exact R|exact H3|exact H4|lia|]. intros a p' v' t' s' Ga P _. x_in.
    eapply r_delim_next2; eauto. }
  eapply r_delim_next; eauto.
Qed.

Lemma r_delimited d ds segs h b p v t s c (Q : option (list expr) -> ctx -> Prop) :
  S_ b p v t s c -> rngs T p v s -> 0 <= ds <= L + 1 -> goods T segs ->
  100 * (AM - (3 * ky T p v + 2)) + 10 < BC ->
  (forall a p' v' t' s', goods T a -> prog T p v s p' v' s' -> forall c', S_ true p' v' t' s' c' -> Q a c') ->
  wpf (consumeDelimitedString rec d ds segs h) c Q.
Proof.
  intros Hs R H1 H2 HB HQ. unfold consumeDelimitedString. eapply (@r_delim_next2 d ds h p v s R H1 ltac:(lia)); eauto. now apply prog_refl.
Qed.
Lemma r_single b p v t s c (Q : unit -> ctx -> Prop) :
  S_ b p v t s c -> rngs T p v s -> 1 <= p -> 100 * (AM - (3 * ky T p v + 2)) + 10 < BC ->
  (forall p' v' t' s', prog T p v s p' v' s' -> forall c', S_ true p' v' t' s' c' -> Q tt c') ->
  wpf (consumeSingleQuotedString rec) c Q.
Proof.
  intros Hs R H1 HB HQ. pose proof R as (R1 & R2 & R3). unfold consumeSingleQuotedString. x.
  eapply r_delimited; [x_s|exact R|lia|exact I|exact HB|]. intros. x_intro. x. eapply HQ; eauto.
Qed.
Lemma r_regexp b p v t s c (Q : bool -> ctx -> Prop) :
  S_ b p v t s c -> rngs T p v s -> 1 <= p -> 100 * (AM - (3 * ky T p v + 2)) + 10 < BC ->
  (forall r p' v' t' s', prog T p v s p' v' s' -> forall c', S_ true p' v' t' s' c' -> Q r c') ->
  wpf (consumeRegexp rec) c Q.
Proof.
  intros Hs R H1 HB HQ. pose proof R as (R1 & R2 & R3). unfold consumeRegexp. x.
  eapply r_delimited; [x_s|exact R|lia|exact I|exact HB|]. intros a p' v' t' s' Ga P. x_in. cbv beta iota. x. x_case.
  - x. eapply r_retok; [x_s|x_in]. cbv beta iota. x. eapply HQ; eauto.
  - x. eapply HQ; [|eassumption]. destruct P as (Q1 & Q2 & Q3 & Q4). 
    assert (ky T p v <= ky T p v') by (apply (@vn_reset T p v v' p); auto; unfold rngs in *; lia).
    assert (ky T s v <= ky T s' v' \/ ky T p v <= ky T s' v') by lia.
    unfold prog, rngs in *. repeat split; try lia; auto.
Qed.
Lemma Forall_last (P : expr -> Prop) (l : list expr) x : Forall P l -> P x -> Forall P (l ++ [x]).
Proof. intros. apply Forall_app. auto. Qed.
Lemma r_double b p v t s c (Q : unit -> ctx -> Prop) :
  S_ b p v t s c -> rngs T p v s -> 1 <= p -> 100 * (AM - (3 * ky T p v + 2)) + 10 < BC ->
  (forall p' v' t' s', prog T p v s p' v' s' -> forall c', S_ true p' v' t' s' c' -> Q tt c') ->
  wpf (consumeDoubleQuotedString rec) c Q.
Proof.
  intros Hs R H1 HB HQ. pose proof R as (R1 & R2 & R3). unfold consumeDoubleQuotedString. x.
  eapply r_delimited; [x_s|exact R|lia|destruct x; [constructor|exact I]|exact HB|]. intros a p' v' t' s' Ga P. x_in. cbv beta iota. x_case; [x; eapply HQ; eauto|].
  unfold value_string. x. x_case; try (eapply r_throw; x_s). x.
  assert (Hst: good T (EString (mkpos s' (p' - s')) s0)) by (destruct P as ((? & ? & ?) & _); zz).
  set (segs' := match a with Some _ => _ | None => _ end).
  assert (Hg: Forall (good T) segs').
  { subst segs'. destruct a as [[|y l]|]; [apply F1; exact Hst| |apply F1; exact Hst].
    cbn in Ga. destruct s0; [exact Ga|]. change ((y :: l) ++ [EString (mkpos s' (p' - s')) (z :: s0)]) with ((y :: l) ++ [EString (mkpos s' (p' - s')) (z :: s0)]). now apply Forall_last. }
  destruct segs' as [|y l]; [eapply r_throw; x_s|]. inversion Hg; subst.
  assert (X: wpf (settokenValue TConcatenatedString (VExpr (EConcat (mkpos (byteOffset y) (p' - byteOffset y)) (y :: l)))) c0 Q).
  { eapply r_set; [x_s| |x_in; eapply HQ; eauto]. split; [exact H3|reflexivity]. }
  destruct y; try exact X. destruct l; [|exact X]. x. eapply HQ; eauto.
Qed.

Section Apply.
Variables (e i : Z) (fl : list Z) (p v s : Z).
Hypotheses (R : rngs T p v s) (HB : 100 * (AM - (3 * ky T p v + 2)) + 3 <= BC).
Lemma r_apply_next bld segs b p1 v1 t1 s1 c (Q : str * option (list expr) -> ctx -> Prop) :
  S_ b p1 v1 t1 s1 c -> prog T p v s p1 v1 s1 -> (s1 = s \/ ky T p v <= ky T s1 v1) -> goods T segs ->
  (forall a p' v' t' s', goods T (snd a) -> prog T p v s p' v' s' -> (s' = s \/ ky T p v <= ky T s' v') -> forall c', S_ false p' v' t' s' c' -> Q a c') ->
  wpf ('(ec', st) <- next ;; rec (FApply e i fl bld ec' st segs)) c Q.
Proof.
  intros Hs P Hd Hg HQ. pose proof R as (R1 & R2 & R3). pose proof P as ((Q1 & Q2 & Q3) & P2 & P3 & P4).
  x. rename H into Hsee. destruct (seen_step Hsee Q1) as (W1 & W2 & W3). destruct (@next_key p p1 v v1 r w Q1 Hsee P2) as [W4 W5].
  assert (P' := prog_step R P W1 W2). eapply (r_apply Hrec); [x_s|apply P'|exact Q1|exact W3|exact Hg| |].
  - destruct (Z.eqb_spec r 0); [lia|]. specialize (W5 n0). lia.
  - intros a p' v' t' s' Ga Pa Hd'. x_in. eapply HQ; [exact Ga| | |eassumption]; [eapply prog_trans; [exact R1|exact P'|exact Pa]|].
    destruct Hd' as [->|Hd']; [|right; lia].
    destruct Hd as [->|Hd]; [now left|]. destruct Pa as (_ & Pa & _ & [Pb|Pb]); right; lia.
Qed.
End Apply.
Lemma r_apply_body e i fl bld r st segs b p v t s c (Q : str * option (list expr) -> ctx -> Prop) :
  S_ b p v t s c -> rngs T p v s -> 0 <= st <= L + 1 -> (r <> 0 -> 1 <= p) -> goods T segs ->
  100 * (AM - (3 * ky T p v + 2)) + (if r =? 0 then 1 else 3) <= BC ->
  (forall a p' v' t' s', goods T (snd a) -> prog T p v s p' v' s' -> (s' = s \/ ky T p v <= ky T s' v') -> forall c', S_ false p' v' t' s' c' -> Q a c') ->
  wpf (apply_body rec e i fl bld r st segs) c Q.
Proof.
  intros Hs R H1 H2 H3 HB HQ. pose proof R as (R1 & R2 & R3). assert (P0 := prog_refl R). unfold apply_body. cbv zeta.
  x_case; [|x; eapply HQ; [exact H3|exact P0|now left|eapply S_weak; eassumption]].
  destruct (Z.eqb_spec r 0) as [->|Hr]; [cbn in *; discriminate|]. specialize (H2 Hr).
  assert (PLAIN: forall bld r st b p1 v1 t1 s1 c, S_ b p1 v1 t1 s1 c -> prog T p v s p1 v1 s1 -> (s1 = s \/ ky T p v <= ky T s1 v1) -> 0 <= st <= L + 1 ->
    wpf (match r =? "$"%ch, segs with
         | true, Some ss => ss' <- handleInterpolation rec st ss bld;; '(c', start') <- next;; rec (FApply e i fl [] c' start' (Some ss'))
         | _, _ => (if r =? 10 then stripIndent i else ret tt);; '(c', start') <- next;; rec (FApply e i fl (bld ++ encode_rune r) c' start' segs)
         end) c Q).
  { clear Hs. clear Heqb0 H1 st b c t. intros bld' r' st b p1 v1 t1 s1 c Hs P Hd Hst. pose proof P as ((Q1 & Q2 & Q3) & P2 & P3 & P4).
    assert (X: wpf ((if r' =? 10 then stripIndent i else ret tt);; '(c', start') <- next;; rec (FApply e i fl (bld' ++ encode_rune r') c' start' segs)) c Q).
    { apply wpf_bind. x_case.
      - eapply r_stripIndent; [x_s|lia|]. intros p' Hp'. x_in. eapply r_apply_next with (1 := R); eauto.
        replace p' with (p1 + (p' - p1)) by lia. eapply prog_step; eauto; lia.
      - apply wpf_ret; cbv beta iota. eapply r_apply_next with (1 := R); eauto. }
    destruct (r' =? "$"%ch); [|exact X]. destruct segs as [ss|]; [|exact X].
    apply wpf_bind. eapply r_handleInterpolation; [x_s|apply P|exact Hst|exact H3|lia|]. intros a p' v' t' s' Ga Pa ->. x_in.
    eapply r_apply_next with (1 := R); eauto; [eapply prog_trans; eauto|]. right. destruct Pa as (_ & Pa & _). lia. }
  x_case; [now eapply PLAIN; eauto|].
  apply wpf_bind. x. rename H into Hsee. destruct (seen_step Hsee R1) as (W1 & W2 & W3).
  assert (P' := prog_step R P0 W1 W2).
  x_case; [x; eapply HQ; [exact H3|exact P'|now left|eapply S_weak; eassumption]|].
  x_case; [now eapply PLAIN; eauto|].
  apply wpf_bind.
  assert (CONT: forall bld' p' c', p + w <= p' <= L + 1 -> S_ b p' v t s c' -> wpf ('(c', start') <- next;; rec (FApply e i fl bld' c' start' segs)) c' Q).
  { intros bld' p' c' Hp' Hs'. eapply r_apply_next with (1 := R); eauto.
    replace p' with (p + w + (p' - p - w)) by lia. eapply prog_step; eauto; lia. }
  repeat (x_case; [solve [apply wpf_ret; cbv beta iota; eapply CONT; [|eassumption]; zz
     | eapply r_appendUnicode; [x_s|zz|]; intros buf' p' Hp'; x_in; eapply CONT; [|eassumption]; zz
     | apply wpf_bind; eapply r_stripIndent; [x_s|zz|]; intros p' Hp'; x_in; cbv beta; apply wpf_ret; cbv beta iota; eapply CONT; [|eassumption]; zz]|]).
  apply wpf_ret; cbv beta iota. eapply CONT; [|eassumption]; zz.
Qed.
Lemma r_applyEscapes e i fl segs b p v t s c (Q : str * option (list expr) -> ctx -> Prop) :
  S_ b p v t s c -> rngs T p v s -> goods T segs -> 100 * (AM - (3 * ky T p v + 2)) + 10 < BC ->
  (forall a p' v' t' s', goods T (snd a) -> prog T p v s p' v' s' -> (s' = s \/ ky T p v <= ky T s' v') -> forall c', S_ false p' v' t' s' c' -> Q a c') ->
  wpf (applyEscapes rec e i fl segs) c Q.
Proof.
  intros Hs R H1 HB HQ. pose proof R as (R1 & R2 & R3). unfold applyEscapes. apply wpf_bind. eapply r_stripIndent; [x_s|lia|]. intros p' Hp'. x_in.
  assert (100 * (AM - (3 * ky T p v + 2)) + 3 <= BC) by lia.
  eapply r_apply_next with (1 := R); eauto. apply prog_fwd; [exact R|lia].
Qed.

(** ** Heredocs *)
Lemma r_extractFlags st b p v t s c (Q : list Z -> ctx -> Prop) :
  S_ b p v t s c -> 0 <= st <= L + 1 -> (forall x, Q x c) -> wpf (extractFlags st) c Q.
Proof. intros Hs Hst HQ. unfold extractFlags. x. eapply r_extract_flags; [x_s|zz|exact HQ]. Qed.
Lemma r_tagEnd start hs b p v t s c (Q : hdecl * Z -> ctx -> Prop) d0 :
  S_ b p v t s c -> 0 <= p <= L + 1 -> 0 <= hs <= L + 1 -> h_escapeStart d0 = -1 ->
  (forall d p', p <= p' <= L -> forall c', S_ b p' v t s c' -> Q (d, p') c') ->
  wpf (while (tagEnd_step start hs) d0) c Q.
Proof.
  intros Hs Hp Hh Hd HQ. pose proof (@LT_nonneg T) as HL.
  eapply r_while with (m := L + 1 - p) (I := fun d m c => exists p1, S_ b p1 v t s c /\ m = L + 1 - p1 /\ p <= p1 <= L + 1 /\ h_escapeStart d <= L + 1);
    [eapply text_of; eauto|exists p; split; [eassumption|]; lia|lia|].
  clear c Hs. intros d m c (p1 & Hs & -> & H1 & H2). split; [lia|].
  unfold tagEnd_step. x. rename H into Hsee.
  x_case; [x|].
  assert (Hr: r <> 0) by (intros ->; discriminate).
  assert (GO: forall d' p2 c', S_ b p2 v t s c' -> p1 < p2 <= L + 1 -> h_escapeStart d' <= L + 1 -> exists m',
    m' < L + 1 - p1 /\ (exists p1, S_ b p1 v t s c' /\ m' = L + 1 - p1 /\ p <= p1 <= L + 1 /\ h_escapeStart d' <= L + 1)).
  { intros d' p2 c' Hs' K1 K2. exists (L + 1 - p2). split; [lia|]. exists p2. split; [exact Hs'|]. lia. }
  x_case.
  { apply wpf_bind. 
    eapply wpf_weaken with (Q := fun _ c' => S_ b p1 v t s c'); [x_case; x; assumption|]. intros sy c1 Hs1. clear c Hs. x.
    eapply wpf_weaken with (Q := fun _ c' => S_ b p1 v t s c').
    { x_case; x; [|assumption]. eapply r_extractFlags; [x_s|lia|]. intros. x. assumption. }
    intros fl c2 Hs2. clear c1 Hs1. x.
    eapply wpf_weaken with (Q := fun _ c' => S_ b p1 v t s c'); [x_case; x; assumption|]. intros tg c3 Hs3. clear c2 Hs2. x.
    eapply HQ; [|eassumption]. zz. }
  x_case.
  { x_case; x. eapply wpf_weaken with (Q := fun _ c' => S_ b p1 v t s c'); [x_case; x; assumption|]. intros tg c1 Hs1. clear c Hs. x.
    eapply GO; [eassumption|zz|exact H2]. }
  x_case.
  { x_case; x. eapply wpf_weaken with (Q := fun d' c' => S_ b p1 v t s c' /\ h_escapeStart d' = h_escapeStart d).
    { x_case; x; [split; [assumption|reflexivity]|]. x_case; x; (split; [assumption|reflexivity]). }
    intros d' c1 [Hs1 E]. clear c Hs. x. eapply GO; [eassumption|zz|]. cbn [h_escapeStart]. zz. }
  x_case.
  { x_case; x. x_case; x. x_case; x. eapply GO; [eassumption|zz|exact H2]. }
  x. eapply GO; [eassumption|zz|exact H2].
Qed.
Lemma r_startOfText hs r0 sz0 b p v t s c (Q : Z * Z -> ctx -> Prop) :
  S_ b p v t s c -> 0 <= p <= L + 1 -> -1 <= v <= L + 1 -> 0 <= hs <= L + 1 -> seen T p r0 sz0 ->
  (forall q, 0 <= q <= L + 1 -> floor_ p v <= q -> ky T p v < ky T q (-1) -> forall c', S_ b q (-1) t s c' -> Q (10, q) c') ->
  wpf (while (startOfText_step hs) (r0, sz0)) c Q.
Proof.
  intros Hs Hp Hv Hh Hsee0 HQ. pose proof (@LT_nonneg T) as HL.
  set (mu := fun c0 p1 : Z => if (c0 =? 0) || (c0 =? 10) then 0 else 1 + (L + 1 - p1)).
  eapply r_while with (m := mu r0 p) (I := fun st m c => exists p1, S_ b p1 v t s c /\ m = mu (fst st) p1 /\ p <= p1 <= L + 1 /\
     (seen T p1 (fst st) (snd st) \/ (snd st = 1 /\ (fst st <> 0 -> p1 <= L))));
    [eapply text_of; eauto|exists p; split; [eassumption|]; cbn [fst snd]; split; [reflexivity|]; split; [lia|]; now left|unfold mu; destruct (_ || _); lia|].
  clear c Hs Hsee0. intros [r sz] m c (p1 & Hs & -> & H1 & H2). cbn [fst snd] in *. split; [unfold mu; destruct (_ || _); lia|].
  assert (GO: forall r' sz' p2 c', S_ b p2 v t s c' -> r <> 0 -> r <> 10 -> p1 <= p2 <= L + 1 -> (r' = 0 \/ r' = 10 \/ p1 < p2) -> 
     (seen T p2 r' sz' \/ (sz' = 1 /\ (r' <> 0 -> p2 <= L))) ->
     exists m', m' < mu r p1 /\ exists p1, S_ b p1 v t s c' /\ m' = mu (fst (r', sz')) p1 /\ p <= p1 <= L + 1 /\ (seen T p1 (fst (r', sz')) (snd (r', sz')) \/ (snd (r', sz') = 1 /\ (fst (r', sz') <> 0 -> p1 <= L)))).
  { intros r' sz' p2 c' Hs' N1 N2 K1 K2 K3. cbn [fst snd]. exists (mu r' p2). split.
    - unfold mu. destruct (Z.eqb_spec r 0), (Z.eqb_spec r 10), (Z.eqb_spec r' 0), (Z.eqb_spec r' 10); cbn [orb]; lia.
    - exists p2. split; [exact Hs'|]. split; [reflexivity|]. split; [lia|exact K3]. }
  unfold startOfText_step. x_case; [x|]. assert (Hr: r <> 0) by lia.
  assert (Hr1: p1 <= L) by zz. assert (Hsz: r < 128 -> sz = 1) by zz.
  assert (Hsz2: 1 <= sz /\ p1 + sz <= L + 1) by zz.
  x_case. { assert (r <> 10) by (intros ->; discriminate). x. eapply GO; [eassumption|assumption|assumption|zz|lia|]. right. split; [|lia]. apply Hsz. apply Z.eqb_eq in Heqb1. rewrite Heqb1. reflexivity. }
  x_case. { assert (r <> 10) by (intros ->; discriminate). assert (sz = 1) by (apply Hsz; apply Z.eqb_eq in Heqb2; rewrite Heqb2; reflexivity). subst sz. x. x_case; x.
    - eapply GO; [eassumption|assumption|assumption|zz|lia|]. right. lia.
    - eapply GO; [eassumption|assumption|assumption|zz| |]; zz. }
  x_case.
  { x. assert (r = 10) by lia. subst r. specialize (Hsz eq_refl). subst sz.
    eapply r_jump2; [x_s| |]; cbv beta.
    - intros Hv1. x_in. x. eapply HQ; [lia| |apply ky_jump; lia|eassumption]. unfold floor_, behind. destruct (_ && _) eqn:?; lia.
    - intros Hv1. x_in. x. assert (v = -1) by lia. subst v. pose proof (@floor_le p (-1)). eapply HQ; [lia|lia|apply ky_lt; lia|eassumption]. }
  x. eapply GO; [eassumption|lia|lia|lia|lia|]. now left.
Qed.
Lemma r_endOfText hs tag r0 sl0 i0 b p t s c (Q : Z * Z * Z -> ctx -> Prop) :
  S_ b p (-1) t s c -> 0 <= p <= L + 1 -> 0 <= hs <= L + 1 -> 1 <= zlen tag ->
  (forall ce he i q, p < he <= L -> forall c', S_ b q (-1) t s c' -> Q (ce, he, i) c') ->
  wpf (while (endOfText_step hs tag) (r0, sl0, i0)) c Q.
Proof.
  intros Hs Hp Hh Htag HQ. pose proof (@LT_nonneg T) as HL.
  set (mu := fun c0 p1 : Z => if c0 =? 0 then 0 else 1 + (L + 1 - p1)).
  eapply r_while with (m := mu r0 p) (I := fun st m c => exists p1, S_ b p1 (-1) t s c /\ m = mu (fst (fst st)) p1 /\ p <= p1 <= L + 1);
    [eapply text_of; eauto|exists p; split; [eassumption|]; cbn [fst snd]; lia|unfold mu; destruct (_ =? _); lia|].
  clear c Hs. intros [[r sl] i] m c (p1 & Hs & -> & H1). cbn [fst snd] in *. split; [unfold mu; destruct (_ =? _); lia|].
  assert (GO: forall (r' : Z) (sl' : bool) (i' : Z) (p2 : Z) c', S_ b p2 (-1) t s c' -> r <> 0 -> p1 <= p2 <= L + 1 -> (r' = 0 \/ p1 < p2) -> 
     exists m', m' < mu r p1 /\ exists p1, S_ b p1 (-1) t s c' /\ m' = mu (fst (fst (r', sl', i'))) p1 /\ p <= p1 <= L + 1).
  { intros r' sl' i' p2 c' Hs' N1 K1 K2. cbn [fst snd]. exists (mu r' p2). split.
    - unfold mu. destruct (Z.eqb_spec r 0), (Z.eqb_spec r' 0); lia.
    - exists p2. split; [exact Hs'|]. split; [reflexivity|]. lia. }
  unfold endOfText_step. x_case; [x|]. assert (Hr: r <> 0) by lia. x_case.
  2:{ x. eapply GO; [eassumption|lia|zz|zz]. }
  x. rename H into I1. rename H0 into Hsee. x_case; [x|]. assert (Hr1: r1 <> 0) by lia.
  x. eapply wpf_weaken with (Q := fun x c' => exists p2, S_ b p2 (-1) t s c' /\ p1 < p2 <= L /\ p1 <= snd (fst x)).
  { x_case; x; (eexists; split; [eassumption|]; cbn [fst snd]; zz). }
  intros [[r2 n2] i2] c2 (p2 & Hs2 & I2 & I3). cbn [fst snd] in I3. x.
  eapply wpf_weaken with (Q := fun x c' => exists p2, S_ b p2 (-1) t s c' /\ p1 < p2 <= L /\ p1 <= snd (fst x)).
  { x_case; x; (eexists; split; [eassumption|]; cbn [fst snd]; zz). }
  intros [[r3 n3] sl3] c3 (p3 & Hs3 & I4 & I5). cbn [fst snd] in I5. cbv beta iota.
  x_case; x; [eapply GO; [eassumption|lia|zz|zz]|]. x_case; [|x; eapply GO; [eassumption|lia|zz|zz]].
  assert (n3 + zlen tag <= L) by (unfold LT; lia).
  x. x_case.
  - x_case; [x_case|]; x; (eapply HQ; [|eassumption]; zz).
  - x. eapply GO; [eassumption|lia|zz|zz].
Qed.

Lemma r_heredoc b p v t s c (Q : unit -> ctx -> Prop) :
  S_ b p v t s c -> rngs T p v s -> 2 <= p -> s <= p -> 100 * (AM - (3 * ky T p v + 2)) + 10 < BC ->
  (forall p' v' t' s', prog T p v s p' v' s' -> forall c', S_ true p' v' t' s' c' -> Q tt c') ->
  wpf (consumeHeredocString rec) c Q.
Proof.
  intros Hs R Hp Hsp HB HQ. pose proof R as (R1 & R2 & R3). unfold consumeHeredocString. x.
  eapply r_tagEnd; [x_s|lia|lia|reflexivity|]. intros d g Hg. x_in. cbv beta iota.
  destruct (h_tag d) as [|tz tl] eqn:Etag; [x|]. x. rename H into Hsee.
  eapply r_startOfText; [x_s|lia|lia|lia|exact Hsee|]. intros q K1 K2 K3. x_in. cbv beta iota.
  assert (F: floor_ p v <= q).
  { enough (floor_ p v <= floor_ g v) by lia. eapply ky_floor_mono with (T := T); [lia|lia|]. apply ky_le; lia. }
  assert (KQ: ky T p v < ky T q (-1)) by (pose proof (@ky_le T p g v); lia).
  x. eapply r_endOfText; [x_s|lia|lia|rewrite zlen_cons; pose proof (zlen_nonneg tl); lia|]. intros ce he ind q2 K4. x_in. cbv beta iota zeta.
  assert (DONE: forall s', 0 <= s' <= L + 1 -> (s' = s \/ q <= s') -> prog T p v s g (he + 1) s').
  { intros s' Hs' D. pose proof (@floor_le p v ltac:(lia)). split; [unfold rngs; lia|]. split; [apply ky_floor; lia|]. split; [right; right; lia|].
    destruct D as [->|D]; [left; eapply (@vn_reset T p v (he + 1) s); try lia; right; right; lia|]. right. apply ky_floor; lia. }
  assert (LIT: forall b x q0 v0 t0 s0 c0, S_ b q0 v0 t0 s0 c0 -> 0 <= s0 <= L + 1 -> (s0 = s \/ q <= s0) ->
    wpf (modify (fun c => with_nls (he + 1) (with_pos g c)) ;; f <- option_on o_factory ;;
        if f : bool then
          settokenValue THeredoc
            (VExpr (EHeredoc (mkpos (p - 2) (ce - (p - 2))) (h_syntax d)
                             (EString (mkpos q (ce - q)) x)))
        else settokenValue TString (VStr x)) c0 Q).
  { intros b0 x0 q0 v0 t0 s0 c9 Hs' Hr Hd. x. eapply r_after; [x_s|]. x_in. cbv beta. x. x_case; x.
    - split; [zz|reflexivity].
    - eapply HQ; [eapply DONE; eassumption|eassumption].
    - eapply HQ; [eapply DONE; eassumption|eassumption]. }
  x_case.
  - x. eapply r_applyEscapes; [x_s|unfold rngs; lia|destruct (_ && _); [constructor|exact I]|lia|].
    intros [hd segs] p' v' t' s' Gs P D. x_in. cbv beta iota.
    assert (D': 0 <= s' <= L + 1 /\ (s' = s \/ q <= s')).
    { split; [apply P|]. destruct D as [D|D]; [now left|right]. destruct P as (PR & _). unfold rngs in PR.
      assert (floor_ q (-1) <= floor_ s' v') by (eapply ky_floor_mono with (T := T); [lia|lia|exact D]).
      pose proof (@floor_le s' v' ltac:(lia)). unfold floor_ at 1 in H. cbn in H. lia. }
    destruct segs as [[|sg ss]|]; [eapply LIT; [x_s|apply D'|apply D']| |eapply LIT; [x_s|apply D'|apply D']].
    x. eapply r_after; [x_s|]. x_in. cbv beta. x.
    + split; [zz|reflexivity].
    + eapply HQ; [eapply DONE; apply D'|eassumption].
  - x. eapply LIT; [x_s|lia|now left].
Qed.

(** ** EPP *)
Lemma r_epp_comment prev b p v t s c (Q : bool -> ctx -> Prop) :
  S_ b p v t s c -> 0 <= p <= L + 1 ->
  (forall r p', p <= p' <= L + 1 -> forall c', S_ b p' v t s c' -> Q r c') ->
  wpf (epp_comment prev) c Q.
Proof.
  intros Hs Hp HQ. pose proof (@LT_nonneg T) as HL. unfold epp_comment.
  eapply r_while with (m := L + 1 - p) (I := fun st m c => exists p1, S_ b p1 v t s c /\ m = L + 1 - p1 /\ p <= p1 <= L + 1);
    [eapply text_of; eauto|exists p; split; [eassumption|]; lia|lia|].
  clear c Hs. intros pv m c (p1 & Hs & -> & H1). split; [lia|]. x.
  destruct (Z.eqb_spec r 0); [x; eapply HQ; [|eassumption]; zz|].
  x_case; x.
  - x_case; x; [eapply HQ; [|eassumption]; zz|]. eexists (L + 1 - _). split; [|eexists; split; [eassumption|split; [reflexivity|]]]; zz.
  - eexists (L + 1 - _). split; [|eexists; split; [eassumption|split; [reflexivity|]]]; zz.
Qed.
Lemma r_epp_loop b p v t s c (Q : bool -> ctx -> Prop) st0 :
  S_ b p v t s c -> 0 <= p <= L + 1 ->
  (forall r t' p', p <= p' <= L + 1 -> (r = false -> t' = TEnd \/ t' = TRenderString) -> forall c', S_ true p' v t' s c' -> Q r c') ->
  wpf (while epp_step st0) c Q.
Proof.
  intros Hs Hp HQ. pose proof (@LT_nonneg T) as HL.
  eapply r_while with (m := L + 1 - p) (I := fun st m c => exists p1, S_ b p1 v t s c /\ m = L + 1 - p1 /\ p <= p1 <= L + 1);
    [eapply text_of; eauto|exists p; split; [eassumption|]; lia|lia|].
  clear c Hs. intros [buf lw] m c (p1 & Hs & -> & H1). split; [lia|].
  assert (GO: forall p2 c', S_ b p2 v t s c' -> p1 < p2 <= L + 1 -> exists m', m' < L + 1 - p1 /\ exists p1, S_ b p1 v t s c' /\ m' = L + 1 - p1 /\ p <= p1 <= L + 1).
  { intros p2 c' Hs' K. exists (L + 1 - p2). split; [lia|]. exists p2. split; [exact Hs'|lia]. }
  unfold epp_step. x. rename H into Hsee.
  destruct (Z.eqb_spec r 0).
  { x. x_case; x; (eapply HQ; [| |eassumption]; [zz|auto]). }
  assert (K: p1 < p1 + w <= L) by zz.
  repeat first [x_case | x1
    | solve [eapply r_epp_comment; [x_s|zz|]; intros ? ? ?; x_in; cbv beta; x_case; x; eapply GO; [eassumption|zz]]
    | solve [eapply GO; [eassumption|zz]] | solve [eapply HQ; [| |eassumption]; [zz|auto]]].
Qed.
Lemma r_consumeEPP b p v t s c (Q : unit -> ctx -> Prop) :
  S_ b p v t s c -> rngs T p v s -> 100 * (AM - (3 * ky T p v + 2)) + 10 < BC ->
  (forall p' v' t' s', prog T p v s p' v' s' -> forall c', S_ true p' v' t' s' c' -> Q tt c') ->
  wpf (consumeEPP rec) c Q.
Proof.
  intros Hs R HB HQ. pose proof R as (R1 & R2 & R3). unfold consumeEPP. x.
  eapply r_epp_loop; [x_s|lia|]. intros r t' p' Hp' _. x_in. cbv beta iota.
  assert (P: prog T p v s p' v s) by (apply prog_fwd; [exact R|lia]). destruct r.
  - eapply (r_nextToken Hrec); [x_s|apply P|destruct P; lia|]. intros p2 v2 t2 s2 P2 _ _. x_in. eapply HQ; [|eassumption]. eapply prog_trans; eauto.
  - x. eapply HQ; eauto.
Qed.

(** ** Tokens *)
Lemma r_lex_number start b p v t s c (Q : unit -> ctx -> Prop) :
  S_ b p v t s c -> rngs T p v s -> (forall p' t', p <= p' <= L + 1 -> forall c', S_ true p' v t' s c' -> Q tt c') ->
  wpf (lex_number start) c Q.
Proof.
  intros Hs R HQ. pose proof R as (R1 & R2 & R3). unfold lex_number. x. destruct (_ || _ || _).
  - x. eapply r_consumeFloat; [x_s|zz|]. x_intro. eapply HQ; [|eassumption]; zz.
  - x. x_case; x; try zz. eapply HQ; [|eassumption]; zz.
Qed.
Lemma r_lex_zero start b p v t s c (Q : unit -> ctx -> Prop) :
  S_ b p v t s c -> rngs T p v s -> (forall p' t', p <= p' <= L + 1 -> forall c', S_ true p' v t' s c' -> Q tt c') ->
  wpf (lex_zero start) c Q.
Proof.
  intros Hs R HQ. pose proof R as (R1 & R2 & R3). unfold lex_zero. x.
  x_case; [x; eapply HQ; [|eassumption]; zz|].
  x_case; [x; x_case; x; try zz; eapply HQ; [|eassumption]; zz|].
  x_case; [x; eapply r_consumeFloat; [x_s|zz|]; x_intro; eapply HQ; [|eassumption]; zz|].
  x. x_case; x; try zz. x_case; x; (eapply HQ; [|eassumption]; zz).
Qed.
Lemma r_lex_variable start b p v t s c (Q : unit -> ctx -> Prop) :
  S_ b p v t s c -> rngs T p v s -> 0 <= start <= L + 1 -> (forall p' t', p <= p' <= L + 1 -> forall c', S_ true p' v t' s c' -> Q tt c') ->
  wpf (lex_variable start) c Q.
Proof.
  intros Hs R Hst HQ. pose proof R as (R1 & R2 & R3). unfold lex_variable. x.
  eapply wpf_weaken with (Q := fun x c' => exists p', p <= p' <= L + 1 /\ S_ b p' v t s c' /\ seen T p' (fst x) (snd x)).
  { x_case; x.
    - x_case; x. eexists. split; [|split; [eassumption|assumption]]. zz.
    - eexists. split; [|split; [eassumption|assumption]]. zz. }
  intros [r' w'] c' (p' & Hp' & Hs' & Hsee). cbn [fst snd] in *. cbv beta iota.
  x_case; [x; eapply r_qualifiedName; [x_s|zz|lia|]; intros t2 p2 Hp2; x_in; eapply HQ; [|eassumption]; zz|].
  x_case; [x; eapply HQ; [|eassumption]; zz|].
  x. x_case; x; try zz. eapply HQ; [|eassumption]; zz.
Qed.
Lemma r_lex_paren start b p v t s c (Q : unit -> ctx -> Prop) :
  S_ b p v t s c -> rngs T p v s -> (forall p' v' t' s', prog T p v s p' v' s' -> forall c', S_ true p' v' t' s' c' -> Q tt c') ->
  wpf (lex_paren start) c Q.
Proof.
  intros Hs R HQ. pose proof R as (R1 & R2 & R3). unfold lex_paren. x.
  eapply r_pos_bol; [x_s|]. intros q c' Hq Hs'. clear Hs. cbv beta iota. x.
  match goal with H : _ = v \/ _ = -1 |- _ => destruct H as [-> | ->] end; (eapply HQ; [|eassumption]).
  - now apply prog_refl.
  - now apply prog_none.
Qed.
Lemma r_lex_colon start b p v t s c (Q : unit -> ctx -> Prop) :
  S_ b p v t s c -> rngs T p v s -> 0 <= start <= L + 1 -> (forall p' t', p <= p' <= L + 1 -> forall c', S_ true p' v t' s c' -> Q tt c') ->
  wpf (lex_colon start) c Q.
Proof.
  intros Hs R Hst HQ. pose proof R as (R1 & R2 & R3). unfold lex_colon. x.
  x_case; [|x; eapply HQ; [|eassumption]; zz].
  x. repeat (x_case; [eapply r_qualifiedName; [x_s|zz|lia|]; intros t2 p2 Hp2; x_in; eapply HQ; [|eassumption]; zz|]). x.
Qed.
Lemma r_op_choice alts dflt (b : bool) p v t s c r w (Q : unit -> ctx -> Prop) :
  S_ b p v t s c -> 0 <= p <= L + 1 -> seen T p r w -> wpf dflt c Q -> (forall p' t', p <= p' <= L + 1 -> forall c', S_ true p' v t' s c' -> Q tt c') ->
  wpf (op_choice alts dflt r w) c Q.
Proof.
  intros Hs Hp Hsee HD HQ. induction alts as [|[y t'] l IH]; cbn [op_choice]; [exact HD|]. x_case; [|exact IH].
  x. eapply HQ; [|eassumption]; zz.
Qed.
Lemma r_op_token alts dflt (b : bool) p v t s c (Q : unit -> ctx -> Prop) :
  S_ b p v t s c -> 0 <= p <= L + 1 -> wpf dflt c Q -> (forall p' t', p <= p' <= L + 1 -> forall c', S_ true p' v t' s c' -> Q tt c') ->
  wpf (op_token alts dflt) c Q.
Proof. intros Hs Hp HD HQ. unfold op_token. x. eapply r_op_choice; eauto. Qed.
Section T1.
Variables (p v s : Z).
Hypotheses (R : rngs T p v s) (HB : 100 * (AM - (3 * ky T p v + 2)) + 10 < BC).
Lemma r_epp_fwd b p1 t1 c (Q : unit -> ctx -> Prop) :
  S_ b p1 v t1 s c -> p <= p1 <= L + 1 ->
  (forall p' v' t' s', prog T p v s p' v' s' -> forall c', S_ true p' v' t' s' c' -> Q tt c') ->
  wpf (consumeEPP rec) c Q.
Proof.
  intros Hs Hp HQ. assert (P: prog T p v s p1 v s) by (apply prog_fwd; [exact R|lia]). pose proof R as (R1 & R2 & R3).
  eapply r_consumeEPP; [x_s|apply P|destruct P; lia|]. intros p2 v2 t2 s2 P2. x_in. eapply HQ; [|eassumption]. eapply prog_trans; eauto.
Qed.
Lemma r_next_fwd b p1 t1 c (Q : unit -> ctx -> Prop) :
  S_ b p1 v t1 s c -> p <= p1 <= L + 1 ->
  (forall p' v' t' s', prog T p v s p' v' s' -> forall c', S_ true p' v' t' s' c' -> Q tt c') ->
  wpf (rec FNextToken) c Q.
Proof.
  intros Hs Hp HQ. assert (P: prog T p v s p1 v s) by (apply prog_fwd; [exact R|lia]). pose proof R as (R1 & R2 & R3).
  eapply (r_nextToken Hrec); [x_s|apply P|destruct P; lia|]. intros p2 v2 t2 s2 P2 _ _. x_in. eapply HQ; [|eassumption]. eapply prog_trans; eauto.
Qed.
Lemma r_lex_minus b t c (Q : unit -> ctx -> Prop) :
  S_ b p v t s c ->
  (forall p' v' t' s', prog T p v s p' v' s' -> forall c', S_ true p' v' t' s' c' -> Q tt c') ->
  wpf (lex_minus rec) c Q.
Proof.
  intros Hs HQ. pose proof R as (R1 & R2 & R3). unfold lex_minus. x.
  assert (OK: forall t' p1 c', p <= p1 <= L + 1 -> S_ true p1 v t' s c' -> Q tt c').
  { intros. eapply HQ; [|eassumption]. apply prog_fwd; [exact R|lia]. }
  repeat (x_case; [solve [x; eapply OK; [|eassumption]; zz]|]).
  x_case; [|x; eapply OK; [|eassumption]; zz].
  x. x_case; x; try zz. 
  eapply wpf_weaken with (Q := fun _ c' => exists p1, S_ b p1 v t s c' /\ p <= p1 <= L + 1); [x_case; x; (eexists; split; [eassumption|]; zz)|].
  intros [] c' (p1 & Hs' & Hp1). cbv beta. eapply r_epp_fwd; eauto.
Qed.
Lemma r_lex_percent b t c (Q : unit -> ctx -> Prop) :
  S_ b p v t s c ->
  (forall p' v' t' s', prog T p v s p' v' s' -> forall c', S_ true p' v' t' s' c' -> Q tt c') ->
  wpf (lex_percent rec) c Q.
Proof.
  intros Hs HQ. pose proof R as (R1 & R2 & R3). unfold lex_percent. x.
  assert (OK: forall t' p1 c', p <= p1 <= L + 1 -> S_ true p1 v t' s c' -> Q tt c').
  { intros. eapply HQ; [|eassumption]. apply prog_fwd; [exact R|lia]. }
  x_case; [|x; eapply OK; [|eassumption]; zz]. x. x_case; [|x; eapply OK; [|eassumption]; zz].
  x. eapply r_epp_fwd; eauto. zz.
Qed.
Lemma r_lex_less b t c (Q : unit -> ctx -> Prop) :
  S_ b p v t s c ->
  (forall p' v' t' s', prog T p v s p' v' s' -> forall c', S_ true p' v' t' s' c' -> Q tt c') ->
  wpf (lex_less rec) c Q.
Proof.
  intros Hs HQ. pose proof R as (R1 & R2 & R3). unfold lex_less. x.
  assert (OK: forall t' p1 c', p <= p1 <= L + 1 -> S_ true p1 v t' s c' -> Q tt c').
  { intros. eapply HQ; [|eassumption]. apply prog_fwd; [exact R|lia]. }
  x_case; [x; eapply OK; [|eassumption]; zz|].
  x_case; [x; eapply r_op_token; [x_s|zz|x; eapply OK; [|eassumption]; zz|]; intros p1 t1 Hp1; x_in; eapply OK; [|eassumption]; zz|].
  repeat (x_case; [solve [x; eapply OK; [|eassumption]; zz]|]).
  x_case; [|x; eapply OK; [|eassumption]; zz].
  x. x_case; [x; eapply OK; [|eassumption]; zz|]. x_case; x; (eapply r_next_fwd; [x_s|zz|exact HQ]).
Qed.
Lemma r_lex_pipe b t c (Q : unit -> ctx -> Prop) :
  S_ b p v t s c ->
  (forall p' v' t' s', prog T p v s p' v' s' -> forall c', S_ true p' v' t' s' c' -> Q tt c') ->
  wpf lex_pipe c Q.
Proof.
  intros Hs HQ. pose proof R as (R1 & R2 & R3). unfold lex_pipe. x.
  assert (OK: forall t' p1 c', p <= p1 <= L + 1 -> S_ true p1 v t' s c' -> Q tt c').
  { intros. eapply HQ; [|eassumption]. apply prog_fwd; [exact R|lia]. }
  x_case; [x; eapply r_op_token; [x_s|zz|x; eapply OK; [|eassumption]; zz|]; intros p1 t1 Hp1; x_in; eapply OK; [|eassumption]; zz|].
  x. x_case; [x; eapply OK; [|eassumption]; zz|]. x.
  match goal with H : _ = v \/ _ = -1 |- _ => destruct H as [-> | ->] end; (x_case; x; (eapply HQ; [|eassumption])).
  all: first [now apply prog_refl | now apply prog_none].
Qed.
Lemma r_lex_at b t c (Q : unit -> ctx -> Prop) :
  S_ b p v t s c -> s <= p -> 1 <= p ->
  (forall p' v' t' s', prog T p v s p' v' s' -> forall c', S_ true p' v' t' s' c' -> Q tt c') ->
  wpf (lex_at rec) c Q.
Proof.
  intros Hs Hsp Hp HQ. pose proof R as (R1 & R2 & R3). unfold lex_at. x. rename H into Hsee.
  assert (OK: forall t' p1 c', p <= p1 <= L + 1 -> S_ true p1 v t' s c' -> Q tt c').
  { intros. eapply HQ; [|eassumption]. apply prog_fwd; [exact R|lia]. }
  x_case; [x; eapply OK; [|eassumption]; zz|]. x_case; [|x; eapply OK; [|eassumption]; zz].
  x_nz r. x. assert (P: prog T p v s (p + w) v s) by (apply prog_fwd; [exact R|zz]).
  eapply r_heredoc; [x_s|apply P|zz|zz|destruct P; lia|]. intros p2 v2 t2 s2 P2. x_in. eapply HQ; [|eassumption]. eapply prog_trans; eauto.
Qed.
Lemma r_lex_token sc r b t c (Q : unit -> ctx -> Prop) :
  S_ b p v t s c -> s < p ->
  (forall p' v' t' s', prog T p v s p' v' s' -> forall c', S_ true p' v' t' s' c' -> Q tt c') ->
  wpf (lex_token rec sc s r) c Q.
Proof.
  intros Hs Hsp HQ. pose proof R as (R1 & R2 & R3).
  assert (OK: forall t' p1 c', p <= p1 <= L + 1 -> S_ true p1 v t' s c' -> Q tt c').
  { intros. eapply HQ; [|eassumption]. apply prog_fwd; [exact R|lia]. }
  assert (OK': forall p1 t' , p <= p1 <= L + 1 -> forall c', S_ true p1 v t' s c' -> Q tt c') by (intros; eapply OK; eauto).
  assert (OK2: forall t' p1, p <= p1 <= Z.max p L -> forall c', S_ true p1 v t' s c' -> Q tt c') by (intros; eapply OK; [|eauto]; lia).
  unfold lex_token, unexpected_char.
  repeat (x_case; [solve [x; try zz; first
    [ eapply OK; [|eassumption]; zz
    | eapply r_lex_number; eauto | eapply r_lex_zero; eauto | eapply r_lex_variable; eauto
    | eapply r_qualifiedName; eauto | eapply r_lex_paren; eauto | eapply r_lex_colon; eauto
    | eapply r_lex_minus; eauto | eapply r_lex_percent; eauto
    | eapply r_op_token; [x_s|lia|x; try zz; eapply OK; [|eassumption]; zz|exact OK'] ]]|]).
  x_case; [eapply r_op_token; [x_s|lia|x|exact OK']|].
  x_case; [eapply r_lex_at; [x_s|lia|lia|exact HQ]|].
  x_case; [eapply r_lex_less; eauto|]. x_case; [eapply r_lex_pipe; eauto|].
  x_case; [eapply r_double; [x_s|exact R|lia|exact HB|exact HQ]|].
  x_case; [eapply r_single; [x_s|exact R|lia|exact HB|exact HQ]|].
  x_case.
  { x. x_case; [|x; eapply OK; [|eassumption]; zz].
    x. eapply r_regexp; [x_s|exact R|lia|exact HB|]. intros f p2 v2 t2 s2 P2. x_in. cbv beta. destruct f; x; eapply HQ; eauto. }
  x_case; [eapply r_lex_variable; eauto|]. x_case; [eapply r_lex_zero; eauto|].
  x_case; [|x]. x. x_case; [|x]. eapply r_backticked; [x_s|lia|exact OK2].
Qed.
End T1.
(** ** The bodies *)
Lemma r_nextToken_body b p v t s c (Q : unit -> ctx -> Prop) :
  S_ b p v t s c -> 0 <= p <= L + 1 -> -1 <= v <= L + 1 -> 100 * (AM - (3 * ky T p v + 2)) + 2 <= BC ->
  (forall p' v' t' s', rngs T p' v' s' -> ky T p v <= ky T p' v' -> (t' <> TEnd -> ky T p v < ky T p' v') -> vnext p v v' -> ky T p v <= ky T s' v' ->
     forall c', S_ true p' v' t' s' c' -> Q tt c') ->
  wpf (nextToken_body rec) c Q.
Proof.
  intros Hs R1 R2 HB HQ. unfold nextToken_body. apply wpf_bind.
  eapply r_getPos; [x_s|]. cbv beta. apply wpf_bind. eapply r_skipWhite; [x_s|lia|lia|]. intros r st w v1 Hst Hsee Hv1 Hk. destruct (Hk ltac:(lia)) as [K1 K2]. x_in. cbv beta iota.
  apply wpf_bind. eapply r_with_tsp; [x_s|]. x_in. cbv beta.
  assert (V1: vnext p v v1) by (destruct Hv1; unfold vnext; auto).
  destruct (Z.eqb_spec r 0) as [->|Hr].
  - change (lex_token rec p st 0) with (setToken TEnd). x. pose proof (@ky_le T st (st + w) v1) as K3. assert (ky T st v1 <= ky T (st + w) v1) by (apply K3; zz).
    eapply HQ. 6:eassumption. { unfold rngs. zz. } { lia. } { congruence. } { exact V1. } { exact K2. }
  - assert (K3: ky T st v1 < ky T (st + w) v1) by (apply ky_lt; zz).
    assert (R': rngs T (st + w) v1 st) by (unfold rngs; zz).
    eapply r_lex_token; [exact R'|lia|x_s|zz|]. intros p2 v2 t2 s2 (P1 & P2 & P3 & P4). x_in.
    eapply HQ. 6:eassumption. { exact P1. } { lia. } { lia. } 2:{ lia. } eapply (@vn_trans T p v (st + w) v1 v2); try lia; [apply R'|exact V1|exact P3].
Qed.
End BC.
End Tok.
