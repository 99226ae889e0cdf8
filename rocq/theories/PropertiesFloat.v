(** * PropertiesFloat: what float literals mean (C45), and their text in PN (C05)

    Stated with SpecFloat.v: [nearest v f] says that [f] is the float64 closest
    to the rational number [v]; [number ds fs x] is the rational number with
    the integer digits [ds], the fraction digits [fs] and the exponent [x]. *)
From Verif Require Import Base Float Pn Tokens Ast Ctx Lexer Parser Api SpecLex SpecGrammar SpecManifest SpecFloat FloatProof FloatText GrammarTop GrammarUse.
From Coq Require Import QArith Qabs Qpower Lia Lqa.
Local Open Scope Z_scope.

(** ** C45 *)
Lemma float_is_float ds fs x e : digits ds -> ds = [0] \/ 0 < hd 0 ds -> digits fs -> exponent_of x e -> fs <> [] \/ e <> [] -> float_text (decimals ds ++ fraction fs ++ e).
Proof.
  intros H1 H2 H3 H4 H5.
  assert (HE: e <> [] -> exponent e). { intros N. destruct H4; [congruence|]. exists e, sign, ds0. auto. }
  destruct fs as [|f fs]; [apply float_exp; auto; destruct H5; [congruence|auto]|].
  destruct e as [|b e]; [rewrite app_nil_r; apply float_point; auto; discriminate|]. unfold fraction. cbn [app]. apply float_point_exp; auto; try discriminate. apply HE. discriminate.
Qed.
(** The full property is: every float literal denotes the nearest float64.  It
    is false for a written exponent of 100000 or more: strconv.ParseFloat does
    not read its last digits.  A number of 10001 zeros, a one and e100000 is 10
    to the power 89999, and read as 0.1. *)
Definition long_zeros : list Z := repeat 0 (100 * 100) ++ [1].
Theorem C45_refuted : exists fs x e f, digits [0] /\ digits fs /\ exponent_of x e /\
  (forall o single, manifests o -> parses o ([] ++ (decimals [0] ++ fraction fs ++ e) ++ []) single (whole single (EFloat z f))) /\
  ~ nearest (number [0] fs x) f.
Proof.
  exists long_zeros, 100000, (lit "e100000"), (parse_float (decimals [0] ++ fraction long_zeros ++ lit "e100000")).
  assert (HD: digits [0]) by (repeat constructor; lia).
  assert (HF: digits long_zeros). { apply Forall_app. split; [|repeat constructor; lia]. apply Forall_forall. intros d H. apply repeat_spec in H. lia. }
  assert (HE: exponent_of 100000 (lit "e100000")).
  { change 100000 with (if list_eq_dec Z.eq_dec [] ["-"%ch] then - value 10 [1; 0; 0; 0; 0; 0] else value 10 [1; 0; 0; 0; 0; 0]). change (lit "e100000") with ("e"%ch :: [] ++ decimals [1; 0; 0; 0; 0; 0]).
    apply exp_some; auto; [repeat constructor; lia|discriminate]. }
  split; [exact HD|]. split; [exact HF|]. split; [exact HE|]. split.
  - intros o single HP. eapply one_token with (t := TFloat) (brk := false) (r := 0); try exact HP; eauto; try discriminate; try exact Logic.I; try reflexivity.
    + constructor.
    + apply (@end_plain false). constructor.
    + apply tt_float. apply (float_is_float (x := 100000)); auto. right. discriminate.
    + apply a_float; reflexivity.
    + split; [intros []|reflexivity].
    + no_name.
  - assert (EF: parse_float (decimals [0] ++ fraction long_zeros ++ lit "e100000") = parse_float (lit "0.1")) by (vm_compute; reflexivity). rewrite EF.
    assert (EL: exists m e, parse_float (lit "0.1") = Fin false m e) by (eexists _, _; vm_compute; reflexivity). destruct EL as (m & e & ->).
    intros (_ & _ & H & _). apply Qlt_not_le in H. apply H. unfold number.
    assert (V: value 10 ([0] ++ long_zeros) = 1) by (vm_compute; reflexivity). rewrite V. assert (L: zlen long_zeros = 10001) by (vm_compute; reflexivity). rewrite L.
    rewrite Qmult_1_l. apply Qle_trans with (10 ^ 400)%Q; [vm_compute; discriminate|]. apply Qpower_le_compat_l; [lia|lra].
Qed.
(** Proved for all others, and for any exponent if there are no more than 9000
    digits before it. *)
Theorem C45_nearest_partial : forall o single brk before after ds fs x e,
  manifests o -> gap brk before -> end_gap after ->
  digits ds -> ds = [0] \/ 0 < hd 0 ds -> digits fs -> exponent_of x e -> fs <> [] \/ e <> [] ->
  Z.abs x < 100000 \/ zlen (ds ++ fs) <= 9000 ->
  exists f, parses o (before ++ (decimals ds ++ fraction fs ++ e) ++ after) single (whole single (EFloat z f)) /\ nearest (number ds fs x) f.
Proof.
  intros o single brk g1 g2 ds fs x e HP H1 H2 H3 H4 H5 H6 H7 H8.
  exists (parse_float (decimals ds ++ fraction fs ++ e)). split; [|apply float_nearest; auto; intros ->; cbn in H4; destruct H4; [discriminate|lia]].
  eapply one_token with (t := TFloat) (brk := brk) (r := 0); try exact HP; eauto; try discriminate; try exact Logic.I; try reflexivity.
  - apply tt_float. apply (float_is_float (x := x)); auto.
  - apply a_float; reflexivity.
  - split; [intros []|reflexivity].
  - no_name.
Qed.
(** [nearest] determines the float *)
Theorem C45_the_nearest_is_unique : forall v f g, nearest v f -> nearest v g -> f = g.
Proof. intros v f g. apply nearest_unique. Qed.
Example C45_case : exponent_of (-3) (lit "e-03") /\ fraction [2; 5] = lit ".25" /\ decimals [1; 7] = lit "17" /\ Qeq (number [1; 7] [2; 5] (-3)) (1725 # 100000)
  /\ parse_float (lit "0.1") = Fin false 7205759403792794 (-56) /\ parse_float (lit "1.7976931348623159e308") = Inf false.
Proof.
  split. { change (-3) with (if list_eq_dec Z.eq_dec ["-"%ch] ["-"%ch] then - value 10 [0; 3] else value 10 [0; 3]). change (lit "e-03") with ("e"%ch :: ["-"%ch] ++ decimals [0; 3]).
    apply exp_some; auto; [repeat constructor; lia|discriminate]. }
  repeat split; vm_compute; reflexivity.
Qed.
(** ** C05 *)
Definition sign (neg : bool) : str := if neg then ["-"%ch] else [].
(** The full property is: the text of every finite float denotes it up to 16
    significant digits.  False: 10^20 is written [1e+2]. *)
Theorem C05_refuted : exists m e, representable m e /\ (amount m e == 10 ^ 20)%Q /\
  format (PLit (LFloat (Fin false m e))) = decimals [1] ++ fraction [] ++ lit "e+2" /\ exponent_of 2 (lit "e+2").
Proof.
  exists 6103515625000000, 14. split; [right; left; lia|]. split; [vm_compute; reflexivity|]. split; [vm_compute; reflexivity|].
  exact (@exp_some "e"%ch ["+"%ch] [2] (or_introl eq_refl) (or_intror (or_intror eq_refl)) ltac:(repeat constructor; lia) ltac:(discriminate)).
Qed.
(** What is true of every float: sign, digits and the place of the point are
    right, but the written exponent [y] may lack zeros at the end of the
    right exponent [x]. *)
Theorem C05_digits_partial : forall neg m e, representable m e -> exists ds fs x y ex,
  format (PLit (LFloat (Fin neg m e))) = sign neg ++ decimals ds ++ fraction fs ++ ex /\
  digits ds /\ ds <> [] /\ digits fs /\ exponent_of y ex /\ shortened x y /\
  (Qabs (number ds fs x - amount m e) <= amount m e * ((1 # 2) * 10 ^ (-15)))%Q.
Proof.
  intros neg m e R. destruct (text_written neg R) as (ds & fs & x & y & ex & A1 & A2 & A3 & A4 & A5 & A6 & A7 & _).
  exists ds, fs, x, y, ex. auto 10.
Qed.
(** So the text denotes the float unless its decimal exponent is a multiple of
    ten (and not 0). *)
Theorem C05_text_partial : forall neg m e, representable m e ->
  (forall t, t <> 0 -> (amount m e < 9 * 10 ^ (10 * t - 1))%Q \/ (10 ^ (10 * t + 1) <= amount m e)%Q) ->
  exists ds fs x ex,
    format (PLit (LFloat (Fin neg m e))) = sign neg ++ decimals ds ++ fraction fs ++ ex /\
    digits ds /\ ds <> [] /\ digits fs /\ exponent_of x ex /\
    (Qabs (number ds fs x - amount m e) <= amount m e * ((1 # 2) * 10 ^ (-15)))%Q.
Proof.
  intros neg m e R H. destruct (text_written neg R) as (ds & fs & x & y & ex & A1 & A2 & A3 & A4 & A5 & A6 & A7 & A8).
  exists ds, fs, x, ex. enough (y = x) as -> by auto 10. destruct A6 as [A6|(k & K & A6)]; [exact A6|].
  destruct (Z.eq_dec x 0) as [X|X]. { pose proof (Z.pow_pos_nonneg 10 k ltac:(lia) ltac:(lia)). nia. }
  destruct A8 as [A8|[A8 A9]]; [contradiction|]. exfalso.
  assert (T: x = 10 * (y * 10 ^ (k - 1))). { rewrite A6. replace k with (1 + (k - 1)) at 1 by lia. rewrite Z.pow_add_r by lia. change (10 ^ 1)%Z with 10. lia. }
  destruct (H (y * 10 ^ (k - 1)) ltac:(lia)) as [Y|Y]; rewrite <- T in Y; [|lra].
  apply Qabs_Qle_condition in A7 as [_ A7]. pose proof (amount_nonneg R) as P.
  assert (E: (10 ^ x == 10 * 10 ^ (x - 1))%Q). { setoid_replace (10 * 10 ^ (x - 1))%Q with (10 ^ 1 * 10 ^ (x - 1))%Q by reflexivity. rewrite <- ten_add. replace (1 + (x - 1)) with x by lia. reflexivity. }
  pose proof (ten_pos (x - 1)) as Q. change (10 ^ (-15))%Q with (1 # 1000000000000000)%Q in A7. lra.
Qed.
(** for instance every float from 0.001 to 10^10 less a bit, and zero *)
Example C05_case : forall m e, representable m e -> (m = 0 \/ (1 # 1000 <= amount m e)%Q /\ (amount m e < 9000000000)%Q) ->
  forall t, t <> 0 -> (amount m e < 9 * 10 ^ (10 * t - 1))%Q \/ (10 ^ (10 * t + 1) <= amount m e)%Q.
Proof.
  intros m e R H t T. destruct H as [->|[H1 H2]].
  - left. assert (E: (amount 0 e == 0)%Q) by (unfold amount; ring). rewrite E. pose proof (ten_pos (10 * t - 1)). lra.
  - assert (1 <= t \/ t <= -1) as [X|X] by lia; [left|right].
    + eapply Qlt_le_trans; [exact H2|]. assert (Y: (10 ^ 9 <= 10 ^ (10 * t - 1))%Q) by (apply Qpower_le_compat_l; [lia|lra]). change (10 ^ 9)%Q with 1000000000%Q in Y. lra.
    + eapply Qle_trans; [|exact H1]. eapply Qle_trans; [apply (@Qpower_le_compat_l 10 _ (-9)); [lia|lra]|]. vm_compute. discriminate.
Qed.
Example C05_case2 : format (PLit (LFloat (parse_float (lit "0.1")))) = lit "0.1" /\ format (PLit (LFloat (parse_float (lit "100.0")))) = lit "1.0e+02"
  /\ format (PLit (LFloat (f64_neg (parse_float (lit "6.02214076e23"))))) = lit "-6.02214076e+23".
Proof. repeat split; vm_compute; reflexivity. Qed.
Print Assumptions C45_refuted.
Print Assumptions C45_nearest_partial.
Print Assumptions C45_the_nearest_is_unique.
Print Assumptions C05_refuted.
Print Assumptions C05_digits_partial.
Print Assumptions C05_text_partial.
