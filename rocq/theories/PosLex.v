(** * PosLex: the loops of the lexer end, and only move forward *)
From Verif Require Import Base Float Tokens Ast Ctx Lexer Parser Utf8Facts PosBase.
From Coq Require Import Lia ZifyBool.

(** ** Tactics *)
Ltac zz := unfold seen, good in *; cbn [byteOffset epos p_off] in *; lia.
Ltac x_s := match goal with |- S_ _ _ _ _ _ _ _ => eassumption | |- S_ _ _ _ _ _ _ _ => eapply S_sub; [eassumption|try discriminate; try reflexivity; auto] end.
(** keep only the newest state *)
Ltac x_in :=
  let c' := fresh "c" in let H := fresh "Hs" in intros c' H;
  match type of H with S_ _ _ _ _ _ _ c' =>
    repeat match goal with K : S_ _ _ _ _ _ _ ?d |- _ => lazymatch d with c' => fail | _ => clear K end end
  end.
Ltac x_hook := fail.
Ltac x0 :=
  match goal with
  | |- wpf _ _ (bind _ _) _ _ => apply wpf_bind
  | |- wpf _ _ (ret _) _ _ => apply wpf_ret; cbv beta iota
  | |- wpf _ _ getPos _ _ => eapply r_getPos; [x_s|]; cbv beta iota
  | |- wpf _ _ (setPos _) _ _ => eapply r_setPos; [x_s|x_in]; cbv beta iota
  | |- wpf _ _ (advance _) _ _ => eapply r_advance; [x_s|x_in]; cbv beta iota
  | |- wpf _ _ curTok _ _ => eapply r_curTok; [x_s|]; cbv beta iota
  | |- wpf _ _ (ask c_tsp) _ _ => eapply r_tsp; [x_s|]; cbv beta iota
  | |- wpf _ _ tokStart _ _ => eapply r_tsp; [x_s|]; cbv beta iota
  | |- wpf _ _ (ask c_text) _ _ => eapply r_text; [x_s|]; cbv beta iota
  | |- wpf _ _ (ask c_val) _ _ => eapply r_val; [x_s|intros ? ?]; cbv beta iota
  | |- wpf _ _ (ask _) _ _ => eapply r_ask; [x_s|intros ?]; cbv beta iota
  | |- wpf _ _ (option_on _) _ _ => eapply r_ask; [x_s|intros ?]; cbv beta iota
  | |- wpf _ _ (isLetterM _) _ _ => eapply r_ask; [x_s|intros ?]; cbv beta iota
  | |- wpf _ _ (settokenValue _ _) _ _ => eapply r_set; [x_s|try exact Logic.I|x_in]; cbv beta iota
  | |- wpf _ _ (setToken _) _ _ => eapply r_setToken; [x_s|x_in]; cbv beta iota
  | |- wpf _ _ (modify (with_radix _)) _ _ => eapply r_radix; [x_s|x_in]; cbv beta iota
  | |- wpf _ _ (modify (with_tsp _)) _ _ => eapply r_with_tsp; [x_s|x_in]; cbv beta iota
  | |- wpf _ _ (issue _) _ _ => eapply r_issue; [x_s|try zz]
  | |- wpf _ _ (issue2 _ _) _ _ => eapply r_issue2; [x_s|try zz]
  | |- wpf _ _ (throw (GoPanic _)) _ _ => eapply r_throw; x_s
  | |- wpf _ _ peek _ _ => eapply r_peek; [x_s|try zz|intros ? ? ?]; cbv beta iota
  | |- wpf _ _ (peekAt _) _ _ => eapply r_peekAt; [x_s|try zz|try zz|intros ? ? ?]; cbv beta iota
  | |- wpf _ _ next _ _ => eapply r_next; [x_s|try zz|intros ? ? ?; x_in]; cbv beta iota
  | |- wpf _ _ (from _) _ _ => eapply r_from; [x_s|intros ? ? ? ?]; cbv beta iota
  end.
Ltac x_case :=
  match goal with
  | |- wpf _ _ (if ?b then _ else _) _ _ => destruct b eqn:?
  | |- wpf _ _ (match ?b with _ => _ end) _ _ => first [is_var b; destruct b | destruct b eqn:?]
  end.
Ltac x1 := first [x0 | x_hook].
Ltac x := repeat x1.

Section Pos.
Variables (T : str) (B : Prop).
Notation L := (LT T).
Notation wpf := (wpf (Ep T) B).
Notation S_ := (S_ T).

Lemma text_of b p v t s c : S_ b p v t s c -> c_text c = T. Proof. now intros []. Qed.
Lemma r_skip_while P b p v t s c (Q : Z * (Z * Z) -> ctx -> Prop) :
  S_ b p v t s c -> 0 <= p <= L + 1 -> P 0 = false ->
  (forall n p' r w, p <= p' <= Z.max p L -> 0 <= n -> (n = 0 <-> p' = p) -> seen T p' r w -> P r = false -> forall c', S_ b p' v t s c' -> Q (n, (r, w)) c') ->
  wpf (skip_while P) c Q.
Proof.
  intros Hs Hp HP HQ. pose proof (@LT_nonneg T) as HL. unfold skip_while.
  eapply r_while with (m := L + 1 - p) (I := fun n m c => exists p', S_ b p' v t s c /\ m = L + 1 - p' /\ p <= p' <= Z.max p L /\ 0 <= n /\ (n = 0 <-> p' = p));
    [eapply text_of; eauto|exists p; split; [eassumption|lia]|lia|].
  clear c Hs. intros n m c (p' & Hs & -> & H1 & H2 & H3). split; [lia|].
  apply wpf_bind. eapply r_peek; [eassumption|lia|]. intros r w K. cbv beta iota.
  destruct (P r) eqn:E.
  - assert (p' < L) by (destruct (Z.lt_ge_cases p' L); [assumption|]; destruct K as [K _]; destruct (K ltac:(lia)) as [-> _]; congruence).
    apply wpf_bind. eapply r_advance; [eassumption|]. intros c' H'. cbv beta. apply wpf_ret. cbv beta iota.
    exists (L + 1 - (p' + w)). split; [zz|]. exists (p' + w). split; [assumption|]. zz.
  - apply wpf_ret. cbv beta iota. eapply HQ; eauto.
Qed.

Lemma r_skipWhiteInLiteral b p v t s c (Q : Z * Z -> ctx -> Prop) :
  S_ b p v t s c -> 0 <= p <= L + 1 ->
  (forall r st w, p <= st <= Z.max p L -> seen T st r w -> forall c', S_ b (st + w) v t s c' -> Q (r, st) c') ->
  wpf skipWhiteInLiteral c Q.
Proof.
  intros Hs Hp HQ. pose proof (@LT_nonneg T) as HL. unfold skipWhiteInLiteral.
  eapply r_while with (m := L + 1 - p) (I := fun _ m c => exists p', S_ b p' v t s c /\ m = L + 1 - p' /\ p <= p' <= Z.max p L);
    [eapply text_of; eauto|exists p; split; [eassumption|lia]|lia|].
  clear c Hs. intros n m c (p' & Hs & -> & H1). split; [lia|]. x.
  destruct (_ || _) eqn:E.
  - x. assert (r <> 0) by (intros ->; vm_compute in E; discriminate).
    exists (L + 1 - (p' + w)). split; [zz|]. exists (p' + w). split; [assumption|]. zz.
  - x. eapply HQ; eauto.
Qed.

Lemma r_skipWhite b p v t s c (Q : Z * Z -> ctx -> Prop) :
  S_ b p v t s c -> 0 <= p -> -1 <= v <= L + 1 ->
  (forall r st w v', 0 <= st -> seen T st r w -> v' = v \/ v' = -1 ->
     (p <= L + 1 -> st <= L + 1 /\ ky T p v <= ky T st v') ->
     forall c', S_ b (st + w) v' t s c' -> Q (r, st) c') ->
  wpf (skipWhite false) c Q.
Proof.
  intros Hs Hp Hv HQ. pose proof (@LT_nonneg T) as HL. unfold skipWhite.
  set (mu := fun p1 v1 => (if 0 <=? v1 then L + 2 else 0) + Z.max 0 (L + 1 - p1)).
  eapply r_while with (m := mu p v) (I := fun st m c => exists p1 v1, S_ b p1 v1 t s c /\ m = mu p1 v1 /\ 0 <= p1 /\ (v1 = v \/ v1 = -1) /\
     (p <= L + 1 -> p1 <= L + 1 /\ ky T p v <= ky T p1 v1) /\ 0 <= snd st <= L + 1);
    [eapply text_of; eauto|exists p, v; split; [eassumption|]; cbn [snd]; unfold mu; lia|unfold mu; destruct (0 <=? v); lia|].
  clear c Hs. intros [cs csp] m c (p1 & v1 & Hs & -> & H1 & H2 & H3 & H4). cbn [snd] in H4. split; [unfold mu; destruct (0 <=? v1); lia|].
  assert (MU: forall w, 1 <= w -> p1 + w <= L -> mu (p1 + w) v1 < mu p1 v1) by (intros; unfold mu; lia).
  assert (KE: forall w, 0 <= w -> p1 + w <= L -> p <= L + 1 -> p1 + w <= L + 1 /\ ky T p v <= ky T (p1 + w) v1).
  { intros w W1 W2 W3. destruct (H3 W3) as [W4 W5]. pose proof (@ky_le T p1 (p1 + w) v1). lia. }
  unfold skipWhite_step. x.
  assert (EXIT: forall c', S_ b (p1 + w) v1 t s c' -> Q (r, p1) c').
  { intros c' Hs'. eapply HQ; eauto. }
  assert (GO: forall csp c' w', S_ b (p1 + w + w') v1 t s c' -> 0 <= csp <= L + 1 -> r <> 0 -> 0 <= w' -> p1 + w + w' <= L -> exists m' : Z,
  m' < mu p1 v1 /\ (exists p2 v2 : Z, S_ b p2 v2 t s c' /\ m' = mu p2 v2 /\ 0 <= p2 /\ (v2 = v \/ v2 = -1) /\
    (p <= L + 1 -> p2 <= L + 1 /\ ky T p v <= ky T p2 v2) /\ 0 <= csp <= L + 1)).
  { intros csp' c' w' Hs' Hc Hr Hw Hw'. exists (mu (p1 + w + w') v1). rewrite <- !Z.add_assoc in *. split; [apply MU; zz|]. exists (p1 + (w + w')), v1.
    split; [assumption|]. split; [reflexivity|]. split; [zz|]. split; [assumption|]. split; [apply KE; zz|assumption]. }
  assert (GO0: forall csp c', S_ b (p1 + w) v1 t s c' -> 0 <= csp <= L + 1 -> r <> 0 -> exists m' : Z,
  m' < mu p1 v1 /\ (exists p2 v2 : Z, S_ b p2 v2 t s c' /\ m' = mu p2 v2 /\ 0 <= p2 /\ (v2 = v \/ v2 = -1) /\
    (p <= L + 1 -> p2 <= L + 1 /\ ky T p v <= ky T p2 v2) /\ 0 <= csp <= L + 1)).
  { intros csp' c' Hs' Hc Hr. eapply (GO csp' c' 0); auto; [now rewrite Z.add_0_r|lia|zz]. }
  destruct (Z.eqb_spec r 0) as [->|Hr].
  { x_case; x; auto. }
  destruct (Z.eqb_spec r 10) as [->|Hn].
  { destruct (cs =? _); x; [now eapply GO0; eauto|].
    eapply r_jump; [eassumption| |]; cbv beta; x.
    - intros Hv1 c' Hs'. apply wpf_bind. eapply r_bol_pos; [eassumption|lia|]. intros c2 Hs2. cbv beta. x.
      exists (mu v1 (-1)). split.
      + unfold mu. destruct (Z.leb_spec 0 v1); [|lia]. cbn [Z.leb Z.compare]. zz.
      + exists v1, (-1). split; [assumption|]. split; [reflexivity|]. split; [lia|]. split; [auto|]. split; [|cbn; lia].
        intros Hp'. destruct (KE w ltac:(zz) ltac:(zz) Hp'). pose proof (@ky_jump T (p1 + w) v1). zz.
    - intros Hv1. apply wpf_bind. eapply r_bol_pos; [eassumption|zz|]. intros c2 Hs2. cbv beta. x. cbn [snd]. eapply GO0; eauto. }
  repeat (x_case; x); try (eapply EXIT; eassumption); cbn [snd].
  all: first [eapply GO0; [eassumption|zz|assumption] | eapply GO; [eassumption|zz|assumption|zz|zz]].
Qed.

(** The variant that stops at a newline *)
Lemma r_skipLine b p v t s c (Q : Z * Z -> ctx -> Prop) :
  S_ b p v t s c -> 0 <= p <= L + 1 ->
  (forall r st p', p <= st <= p' -> p' <= Z.max p L -> (r = 0 \/ r = 10 \/ p < p') -> (r = 10 -> p' < L) -> forall c', S_ b p' v t s c' -> Q (r, st) c') ->
  wpf (skipWhite true) c Q.
Proof.
  intros Hs Hp HQ. pose proof (@LT_nonneg T) as HL. unfold skipWhite.
  eapply r_while with (m := L + 1 - p) (I := fun st m c => exists p1, S_ b p1 v t s c /\ m = L + 1 - p1 /\ p <= p1 <= Z.max p L /\ 0 <= snd st <= L + 1);
    [eapply text_of; eauto|exists p; split; [eassumption|]; cbn [snd]; lia|lia|].
  clear c Hs. intros [cs csp] m c (p1 & Hs & -> & H1 & H4). cbn [snd] in H4. split; [lia|].
  unfold skipWhite_step. x.
  assert (EXIT: forall c', S_ b (p1 + w) v t s c' -> r <> 10 -> Q (r, p1) c').
  { intros c' Hs' Hn. eapply (HQ r p1 (p1 + w)); eauto; zz. }
  assert (GO: forall csp c' w', S_ b (p1 + w + w') v t s c' -> 0 <= csp <= L + 1 -> r <> 0 -> 0 <= w' -> p1 + w + w' <= L -> exists m' : Z,
  m' < L + 1 - p1 /\ (exists p2 : Z, S_ b p2 v t s c' /\ m' = L + 1 - p2 /\ p <= p2 <= Z.max p L /\ 0 <= csp <= L + 1)).
  { intros csp' c' w' Hs' Hc Hr Hw Hw'. exists (L + 1 - (p1 + w + w')). split; [zz|]. exists (p1 + w + w'). split; [assumption|]. zz. }
  assert (GO0: forall csp c', S_ b (p1 + w) v t s c' -> 0 <= csp <= L + 1 -> r <> 0 -> exists m' : Z,
  m' < L + 1 - p1 /\ (exists p2 : Z, S_ b p2 v t s c' /\ m' = L + 1 - p2 /\ p <= p2 <= Z.max p L /\ 0 <= csp <= L + 1)).
  { intros csp' c' Hs' Hc Hr. eapply (GO csp' c' 0); auto; [now rewrite Z.add_0_r|lia|zz]. }
  destruct (Z.eqb_spec r 0) as [->|Hr].
  { x_case; x. eapply EXIT; [eassumption|lia]. }
  destruct (Z.eqb_spec r 10) as [->|Hn].
  { destruct (cs =? _); x; [now eapply GO0; eauto|]. eapply (HQ 10 p1 p1); eauto; zz. }
  repeat (x_case; x); try (eapply EXIT; assumption); cbn [snd].
  all: first [eapply GO0; [eassumption|zz|assumption] | eapply GO; [eassumption|zz|assumption|zz|zz]].
Qed.

Lemma r_skipDecimalDigits b p v t s c (Q : Z -> ctx -> Prop) :
  S_ b p v t s c -> 0 <= p <= L + 1 ->
  (forall n p', p <= p' <= Z.max p L -> forall c', S_ b p' v t s c' -> Q n c') ->
  wpf skipDecimalDigits c Q.
Proof.
  intros Hs Hp HQ. unfold skipDecimalDigits. x. destruct (_ || _) eqn:E.
  - assert (r <> 0) by (intros ->; vm_compute in E; discriminate). x.
    eapply r_skip_while; [eassumption|zz|reflexivity|]. intros n p' r' w' H1 H2 H3 H4 H5 c' Hs'. x. eapply HQ; [|eassumption]. zz.
  - x. eapply r_skip_while; [eassumption|zz|reflexivity|]. intros n p' r' w' H1 H2 H3 H4 H5 c' Hs'. x. eapply HQ; [|eassumption]. zz.
Qed.

Lemma r_dash_scan i b p v t s c (Q : bool -> ctx -> Prop) :
  S_ b p v t s c -> 0 <= p <= i -> i <= L + 1 -> 
  (forall r p', p <= p' <= L + 1 -> (r = true -> i < p' <= L) -> (r = false -> p' = p) -> forall c', S_ b p' v t s c' -> Q r c') ->
  wpf (dash_scan i) c Q.
Proof.
  intros Hs Hp Hi HQ. pose proof (@LT_nonneg T) as HL. unfold dash_scan.
  eapply r_while with (m := L + 1 - i) (I := fun j m c => S_ b p v t s c /\ m = L + 1 - j /\ i <= j <= L + 1);
    [eapply text_of; eauto|split; [eassumption|lia]|lia|].
  clear c Hs. intros j m c (Hs & -> & H1). split; [lia|]. x.
  destruct (isLetterOrDigit r) eqn:E.
  - assert (r <> 0) by (intros ->; vm_compute in E; discriminate). x. eapply HQ; [| | |eassumption]; zz.
  - x_case; x.
    + assert (r <> 0) by (intros ->; vm_compute in Heqb0; discriminate).
      exists (L + 1 - (j + w)). split; [zz|]. split; [assumption|zz].
    + eapply HQ; [| | |eassumption]; zz.
Qed.
End Pos.

Ltac x_intro :=
  repeat match goal with
  | |- forall _ : ctx, S_ _ _ _ _ _ _ _ -> _ => x_in
  | |- forall _, _ => intro
  end; cbv beta iota.
Ltac x_hook ::=
  match goal with
  | |- wpf _ _ (skip_while _) _ _ => eapply r_skip_while; [x_s|try zz|try reflexivity|x_intro]
  | |- wpf _ _ skipWhiteInLiteral _ _ => eapply r_skipWhiteInLiteral; [x_s|try zz|x_intro]
  | |- wpf _ _ (skipWhite false) _ _ => eapply r_skipWhite; [x_s|try zz|try zz|x_intro]
  | |- wpf _ _ (skipWhite true) _ _ => eapply r_skipLine; [x_s|try zz|x_intro]
  | |- wpf _ _ skipDecimalDigits _ _ => eapply r_skipDecimalDigits; [x_s|try zz|x_intro]
  | |- wpf _ _ (dash_scan _) _ _ => eapply r_dash_scan; [x_s|try zz|try zz|x_intro]
  end.
(** a rune that a test accepts is not the end *)
Ltac x_nz r := assert (r <> 0) by (let E := fresh in intros E; rewrite E in *;
  match goal with H : _ = true |- _ => vm_compute in H; discriminate H | H : _ = false |- _ => vm_compute in H; discriminate H end).

Section Pos2.
Variables (T : str) (B : Prop).
Notation L := (LT T).
Notation wpf := (wpf (Ep T) B).
Notation S_ := (S_ T).

Lemma r_qualifiedName start token b p v t s c (Q : unit -> ctx -> Prop) :
  S_ b p v t s c -> 0 <= p <= L + 1 -> 0 <= start <= L + 1 ->
  (forall t' p', p <= p' <= Z.max p L -> forall c', S_ true p' v t' s c' -> Q tt c') ->
  wpf (consumeQualifiedName start token) c Q.
Proof.
  intros Hs Hp Hst HQ. pose proof (@LT_nonneg T) as HL. unfold consumeQualifiedName. apply wpf_bind.
  eapply r_while with (m := L + 1 - p) (I := fun st m c => exists p1, S_ b p1 v t s c /\ m = L + 1 - p1 /\ p <= p1 <= Z.max p L);
    [eapply text_of; eauto|exists p; split; [eassumption|]; cbn [snd]; lia|lia|].
  clear c Hs. intros [us hd] m c (p1 & Hs & -> & H1). split; [lia|].
  Local Ltac ex HQ := x; repeat x_case; x; (eapply HQ; [|eassumption]; zz).
  unfold qualifiedName_step. x. destruct (_ && _) eqn:E1.
  - x. match goal with |- context [if ?r then inl _ else _] => is_var r; destruct r end; cbv beta iota.
    + assert (r <> 0) by (intros ->; vm_compute in E1; discriminate).
      eexists (L + 1 - _). split; [|eexists; split; [eassumption|split; [reflexivity|]]]; zz.
    + ex HQ.
  - x_case; x.
    + ex HQ.
    + assert (r <> 0) by (intros ->; vm_compute in Heqb0; discriminate).
      x_case; x.
      * ex HQ.
      * assert (r0 <> 0) by (intros ->; vm_compute in Heqb1; discriminate).
        x_case; x; try zz.
        eexists (L + 1 - _). split; [|eexists; split; [eassumption|split; [reflexivity|]]]; zz.
Qed.

Lemma r_digits_or_fail b p v t s c (Q : unit -> ctx -> Prop) :
  S_ b p v t s c -> 0 <= p <= L + 1 -> (forall p', p <= p' <= Z.max p L -> forall c', S_ b p' v t s c' -> Q tt c') ->
  wpf digits_or_fail c Q.
Proof. intros Hs Hp HQ. unfold digits_or_fail. x. x_case; x; try zz. eapply HQ; eauto. Qed.
Lemma r_consumeFloat start d b p v t s c (Q : unit -> ctx -> Prop) :
  S_ b p v t s c -> 0 <= p <= L + 1 ->
  (forall t' p', p <= p' <= Z.max p L -> forall c', S_ true p' v t' s c' -> Q tt c') ->
  wpf (consumeFloat start d) c Q.
Proof.
  intros Hs Hp HQ. unfold consumeFloat. x. eapply r_digits_or_fail; [x_s|zz|x_intro]. x. x_case; x.
  - eapply r_digits_or_fail; [x_s|zz|x_intro]. x. x_case; x; try zz. eapply HQ; [|eassumption]. zz.
  - x_case; x; try zz. eapply HQ; [|eassumption]. zz.
Qed.
Lemma r_unterminated A start d b p v t s c (Q : A -> ctx -> Prop) :
  S_ b p v t s c -> 0 <= start <= L + 1 -> wpf (unterminatedQuote start d) c Q.
Proof. intros Hs Hst. unfold unterminatedQuote. x. Qed.

Lemma r_appendHexadec buf b p v t s c (Q : str -> ctx -> Prop) :
  S_ b p v t s c -> 2 <= p <= L + 1 ->
  (forall buf' p', p <= p' <= Z.max p L -> forall c', S_ b p' v t s c' -> Q buf' c') ->
  wpf (appendHexadec buf) c Q.
Proof.
  intros Hs Hp HQ. unfold appendHexadec. x. x_case; x.
  - x_case; x; try zz. eapply HQ; [|eassumption]. zz.
  - eapply HQ; [|eassumption]. zz.
Qed.
Lemma r_unicode_digit st b p v t s c (Q : unit -> ctx -> Prop) :
  S_ b p v t s c -> 0 <= p <= L + 1 -> 2 <= st <= L + 1 ->
  (forall p', p <= p' <= Z.max p L -> forall c', S_ b p' v t s c' -> Q tt c') ->
  wpf (unicode_digit st) c Q.
Proof.
  intros Hs Hp Hst HQ. unfold unicode_digit. x. x_case; x; try zz. eapply HQ; [|eassumption]. zz.
Qed.
Lemma r_appendUnicode buf b p v t s c (Q : str -> ctx -> Prop) :
  S_ b p v t s c -> 2 <= p <= L + 1 ->
  (forall buf' p', p <= p' <= Z.max p L -> forall c', S_ b p' v t s c' -> Q buf' c') ->
  wpf (appendUnicode buf) c Q.
Proof.
  intros Hs Hp HQ. unfold appendUnicode. x. x_case; x.
  - eapply r_unicode_digit; [x_s|zz|zz|x_intro]. x. eapply r_unicode_digit; [x_s|zz|zz|x_intro]. x.
    eapply r_unicode_digit; [x_s|zz|zz|x_intro]. x. eapply HQ; [|eassumption]. zz.
  - x_case; x; try zz. x_case; x; try zz. eapply HQ; [|eassumption]. zz.
Qed.
Lemma r_handle_escape h buf ec b p v t s c (Q : str -> ctx -> Prop) :
  S_ b p v t s c -> 2 <= p <= L + 1 ->
  (forall buf' p', p <= p' <= Z.max p L -> forall c', S_ b p' v t s c' -> Q buf' c') ->
  wpf (handle_escape h buf ec) c Q.
Proof.
  intros Hs Hp HQ. unfold handle_escape.
  assert (Q0: forall buf', Q buf' c) by (intros; eapply HQ; [|eassumption]; lia).
  destruct h; [|x; auto|x; auto].
  repeat (x_case; [solve [x; auto | eapply r_appendUnicode; eauto]|]). x.
  x_case; [eapply r_appendHexadec; eauto|x; auto].
Qed.
Lemma r_stripIndent i b p v t s c (Q : unit -> ctx -> Prop) :
  S_ b p v t s c -> 0 <= p <= L + 1 ->
  (forall p', p <= p' <= Z.max p L -> forall c', S_ b p' v t s c' -> Q tt c') ->
  wpf (stripIndent i) c Q.
Proof.
  intros Hs Hp HQ. pose proof (@LT_nonneg T) as HL. unfold stripIndent. x.
  eapply r_while with (m := L + 1 - p) (I := fun st m c => exists p1, S_ b p1 v t s c /\ m = L + 1 - p1 /\ p <= p1 <= Z.max p L);
    [eapply text_of; eauto|exists p; split; [eassumption|]; cbn [snd]; lia|lia|].
  clear c Hs. intros n m c (p1 & Hs & -> & H1). split; [lia|]. x_case; x.
  - x_case; x.
    + x_nz r. eexists (L + 1 - _). split; [|eexists; split; [eassumption|split; [reflexivity|]]]; zz.
    + eapply HQ; [|eassumption]. zz.
  - eapply HQ; [|eassumption]. zz.
Qed.
Lemma r_extract_flags st l b p v t s c (Q : list Z -> ctx -> Prop) :
  S_ b p v t s c -> 0 <= st <= L + 1 -> (forall x, Q x c) -> wpf (extract_flags st l) c Q.
Proof.
  intros Hs Hst. revert Q. induction l as [|f l IH]; intros Q HQ; cbn [extract_flags]; [x; auto|].
  x_case; [|x_case]; x; try zz; apply IH; intros; x; auto.
Qed.
Lemma r_backticked b p v t s c (Q : unit -> ctx -> Prop) :
  S_ b p v t s c -> 1 <= p <= L + 1 ->
  (forall t' p', p <= p' <= Z.max p L -> forall c', S_ true p' v t' s c' -> Q tt c') ->
  wpf consumeBacktickedString c Q.
Proof.
  intros Hs Hp HQ. unfold consumeBacktickedString. x. x_case.
  - eapply r_unterminated; [x_s|zz].
  - x. eapply HQ; [|eassumption]. zz.
Qed.
End Pos2.
