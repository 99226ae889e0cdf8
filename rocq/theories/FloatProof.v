(** * Proofs about rounding *)
From Verif Require Import Base Float SpecLex SpecFloat.
From Coq Require Import QArith Qabs Qpower Lqa.
Local Open Scope Z_scope.

Lemma two_pos e : (0 < 2 ^ e)%Q.
Proof. apply Qpower_0_lt. reflexivity. Qed.
Lemma two_nz : ~ (2 == 0)%Q. Proof. discriminate. Qed.
Lemma two_add a b : (2 ^ (a + b) == 2 ^ a * 2 ^ b)%Q.
Proof. apply Qpower_plus, two_nz. Qed.
Lemma two_Z n : 0 <= n -> (2 ^ n == inject_Z (2 ^ n)%Z)%Q.
Proof. intros H. rewrite Zpower_Qpower by lia. reflexivity. Qed.
Lemma injl a b : (a <= b)%Z <-> (inject_Z a <= inject_Z b)%Q. Proof. rewrite Zle_Qle. tauto. Qed.
Lemma injt a b : (a < b)%Z <-> (inject_Z a < inject_Z b)%Q. Proof. rewrite Zlt_Qlt. tauto. Qed.

Lemma pos_q a : 0 < a -> (0 < inject_Z a)%Q. Proof. intros H. exact (proj1 (injt 0 a) H). Qed.

Lemma half_even a b : 0 <= a -> 0 < b ->
  let m := div_half_even a b in
  0 <= m /\ -b <= 2 * (a - m * b) <= b /\ ((2 * (a - m * b) = b \/ 2 * (a - m * b) = - b) -> Z.even m = true).
Proof.
  intros Ha Hb. unfold div_half_even. pose proof (Z.div_mod a b ltac:(lia)) as E. pose proof (Z.mod_pos_bound a b Hb) as B.
  pose proof (Z.div_pos a b Ha Hb) as P. set (q := a / b) in *. set (r := a mod b) in *.
  destruct (Z.ltb_spec (2 * r) b); [repeat split; try nia|].
  destruct (Z.ltb_spec b (2 * r)); [repeat split; try nia|].
  destruct (Z.even q) eqn:Ev; repeat split; try nia; auto. intros _. rewrite Z.add_1_r, Z.even_succ, <- Z.negb_even, Ev. reflexivity.
Qed.

(** [w] scaled by [u]: the distance to an integer multiple *)
Lemma Qabs_pos_mult a u : (0 < u)%Q -> (Qabs (a * u) == Qabs a * u)%Q.
Proof. intros H. rewrite Qabs_Qmult. rewrite (Qabs_pos u) by (apply Qlt_le_weak; exact H). reflexivity. Qed.

Lemma amount_shift m a e : 0 <= a -> (amount (m * 2 ^ a) e == amount m (e + a))%Q.
Proof. intros H. unfold amount. rewrite inject_Z_mult, <- two_Z, two_add by lia. ring. Qed.
Lemma amount_one e : (amount 1 e == 2 ^ e)%Q.
Proof. unfold amount. ring. Qed.
Lemma amount_le a b e : a <= b -> (amount a e <= amount b e)%Q.
Proof. intros H. unfold amount. apply Qmult_le_r; [apply two_pos|]. apply (proj1 (injl a b) H). Qed.
Lemma amount_lt a b e : a < b -> (amount a e < amount b e)%Q.
Proof. intros H. unfold amount. apply Qmult_lt_r; [apply two_pos|]. apply (proj1 (injt a b) H). Qed.

Section round.
Variables (num den : Z).
Hypothesis (Hn : 0 < num) (Hd : 0 < den).
Let v : Q := (inject_Z num / inject_Z den)%Q.
Let k := Z.log2 num - Z.log2 den.
Let e0 := Z.max (k - 53) (-1074).
Let sn e := num * 2 ^ (Z.max 0 (- e)).
Let sd e := den * 2 ^ (Z.max 0 e).

Lemma den_q : (0 < inject_Z den)%Q.
Proof. apply pos_q. exact Hd. Qed.
Lemma sd_pos e : 0 < sd e.
Proof. unfold sd. apply Z.mul_pos_pos; [exact Hd|]. apply Z.pow_pos_nonneg; lia. Qed.
Lemma sn_pos e : 0 < sn e.
Proof. unfold sn. apply Z.mul_pos_pos; [exact Hn|]. apply Z.pow_pos_nonneg; lia. Qed.
Lemma scaled e : (v == inject_Z (sn e) / inject_Z (sd e) * 2 ^ e)%Q.
Proof.
  unfold v, sn, sd. rewrite !inject_Z_mult, <- !two_Z by lia. pose proof den_q as D.
  pose proof (two_pos (Z.max 0 (- e))) as A. pose proof (two_pos (Z.max 0 e)) as B.
  assert (E: (2 ^ Z.max 0 e == 2 ^ Z.max 0 (- e) * 2 ^ e)%Q).
  { rewrite <- two_add. replace (Z.max 0 (- e) + e) with (Z.max 0 e) by lia. reflexivity. }
  rewrite E. pose proof (two_pos e) as F. field. repeat split; lra.
Qed.
(** num/den compared with an integer multiple of a power of two *)
Lemma cmp_le e m : (amount m e <= v)%Q <-> m * sd e <= sn e.
Proof.
  rewrite (scaled e). unfold amount. pose proof (two_pos e) as P. pose proof (sd_pos e) as S. apply pos_q in S.
  rewrite (injl (m * sd e)), inject_Z_mult. rewrite Qmult_le_r by exact P. split; intros H.
  - apply (Qmult_le_r _ _ (inject_Z (sd e))) in H; [|exact S]. unfold Qdiv in H. rewrite <- Qmult_assoc, (Qmult_comm (/ _)), Qmult_inv_r, Qmult_1_r in H by lra. exact H.
  - apply Qle_shift_div_l; assumption.
Qed.
Lemma cmp_lt e m : (v < amount m e)%Q <-> sn e < m * sd e.
Proof.
  pose proof (cmp_le e m) as C. split; intros H.
  - destruct (Z.lt_ge_cases (sn e) (m * sd e)) as [K|K]; [exact K|]. apply C in K. lra.
  - apply Qnot_le_lt. intros K. apply C in K. lia.
Qed.
Lemma v_below : (v < 2 ^ (k + 1))%Q.
Proof.
  unfold v, k. apply Qlt_shift_div_r; [exact den_q|].
  pose proof (Z.log2_spec num Hn) as [_ A]. pose proof (Z.log2_spec den Hd) as [B _]. rewrite <- Z.add_1_r in A.
  pose proof (Z.log2_nonneg num). pose proof (Z.log2_nonneg den).
  apply (proj1 (injt _ _)) in A. apply (proj1 (injl _ _)) in B. rewrite <- two_Z in A, B by lia.
  eapply Qlt_le_trans; [exact A|]. replace (Z.log2 num + 1) with ((Z.log2 num - Z.log2 den + 1) + Z.log2 den) by lia. rewrite two_add.
  rewrite Qmult_le_l by apply two_pos. exact B.
Qed.
Lemma v_above : (2 ^ (k - 1) <= v)%Q.
Proof.
  unfold v, k. apply Qle_shift_div_l; [exact den_q|].
  pose proof (Z.log2_spec num Hn) as [A _]. pose proof (Z.log2_spec den Hd) as [_ B]. rewrite <- Z.add_1_r in B.
  pose proof (Z.log2_nonneg num). pose proof (Z.log2_nonneg den).
  apply (proj1 (injt _ _)), Qlt_le_weak in B. apply (proj1 (injl _ _)) in A. rewrite <- two_Z in A, B by lia.
  eapply Qle_trans; [|exact A]. replace (Z.log2 num) with ((Z.log2 num - Z.log2 den - 1) + (Z.log2 den + 1)) at 2 by lia. rewrite (two_add (_ - 1)).
  rewrite Qmult_le_l by apply two_pos. exact B.
Qed.
Let e1 := if 2 ^ 53 <=? sn e0 / sd e0 then e0 + 1 else e0.
Lemma e1_spec : (v < amount (2 ^ 53) e1)%Q /\ -1074 <= e1 /\ (e1 = -1074 \/ (amount (2 ^ 52) e1 <= v)%Q).
Proof.
  pose proof v_below as A. pose proof v_above as B. unfold e1.
  assert (C: 2 ^ 53 <= sn e0 / sd e0 <-> (amount (2 ^ 53) e0 <= v)%Q).
  { rewrite cmp_le. pose proof (sd_pos e0). split; intros H1.
    - pose proof (Z.mul_div_le (sn e0) (sd e0) H). nia.
    - apply Z.div_le_lower_bound; lia. }
  assert (P: forall a e, 0 <= a -> (amount (2 ^ a) e == 2 ^ (e + a))%Q).
  { intros a e Ha. rewrite <- (Z.mul_1_l (2 ^ a)), amount_shift, amount_one by lia. reflexivity. }
  destruct (Z.leb_spec (2 ^ 53) (sn e0 / sd e0)) as [H|H].
  - apply C in H. rewrite P in H by lia. rewrite !P by lia. split; [|split].
    + eapply Qlt_le_trans; [exact A|]. apply Qpower_le_compat_l; [lia|lra]. 
    + lia.
    + right. replace (e0 + 1 + 52) with (e0 + 53) by lia. exact H.
  - assert (H1: (v < amount (2 ^ 53) e0)%Q) by (apply Qnot_le_lt; intros X; apply C in X; lia).
    split; [exact H1|]. split; [lia|]. rewrite P by lia. destruct (Z.eq_dec e0 (-1074)) as [X|X]; [auto|]. right.
    replace (e0 + 52) with (k - 1) by lia. exact B.
Qed.
Lemma dist e i : (Qabs (v - amount i e) == inject_Z (Z.abs (sn e - i * sd e)) * (2 ^ e / inject_Z (sd e)))%Q.
Proof.
  pose proof (sd_pos e) as S. apply pos_q in S. pose proof (two_pos e) as T.
  assert (E: (v - amount i e == inject_Z (sn e - i * sd e) * (2 ^ e / inject_Z (sd e)))%Q).
  { unfold Zminus. rewrite inject_Z_plus, inject_Z_opp, inject_Z_mult, (scaled e). unfold amount. field. lra. }
  rewrite E, Qabs_pos_mult; [|apply Qlt_shift_div_l; lra].
  assert (F: (Qabs (inject_Z (sn e - i * sd e)) == inject_Z (Z.abs (sn e - i * sd e)))%Q) by reflexivity.
  rewrite F. reflexivity.
Qed.
Lemma near_int e i : let m := div_half_even (sn e) (sd e) in
  (Qabs (v - amount m e) <= Qabs (v - amount i e))%Q /\ ((Qabs (v - amount m e) == Qabs (v - amount i e))%Q -> m = i \/ Z.even m = true).
Proof.
  intros m. pose proof (sd_pos e) as S. pose proof (pos_q S) as SQ. pose proof (two_pos e) as T. pose proof (sn_pos e) as N.
  assert (U: (0 < 2 ^ e / inject_Z (sd e))%Q) by (apply Qlt_shift_div_l; lra).
  destruct (@half_even (sn e) (sd e)) as (H1 & H2 & H3); [lia|exact S|]. fold m in H1, H2, H3. rewrite !dist.
  split.
  - apply Qmult_le_r; [exact U|]. apply (proj1 (injl _ _)). destruct (Z.eq_dec m i) as [->|X]; [lia|]. assert (i < m \/ m < i) as [Y|Y] by lia; nia.
  - intros E. apply Qmult_inj_r in E; [|lra]. apply (proj1 (inject_Z_injective _ _)) in E.
    destruct (Z.eq_dec m i) as [->|X]; [auto|]. right. apply H3. assert (i < m \/ m < i) as [Y|Y] by lia; nia.
Qed.
Lemma rounded e : (v < amount (2 ^ 53) e)%Q -> -1074 <= e -> (e = -1074 \/ (amount (2 ^ 52) e <= v)%Q) ->
  let m := div_half_even (sn e) (sd e) in
  0 <= m <= 2 ^ 53 /\ (e = -1074 \/ 2 ^ 52 <= m) /\ 
  forall m' e', representable m' e' ->
      (Qabs (v - amount m e) <= Qabs (v - amount m' e'))%Q /\
      ((Qabs (v - amount m e) == Qabs (v - amount m' e'))%Q -> (amount m e == amount m' e')%Q \/ Z.even m = true).
Proof.
  intros A B C m. pose proof (sd_pos e) as S. pose proof (sn_pos e) as N.
  destruct (@half_even (sn e) (sd e)) as (H1 & H2 & H3); [lia|exact S|]. fold m in H1, H2, H3.
  apply cmp_lt in A. split; [nia|]. split.
  { destruct C as [C|C]; [auto|right]. apply cmp_le in C. nia. }
  assert (I: forall i, (Qabs (v - amount m e) <= Qabs (v - amount i e))%Q /\ ((Qabs (v - amount m e) == Qabs (v - amount i e))%Q -> (amount m e == amount i e)%Q \/ Z.even m = true)).
  { intros i. destruct (near_int e i) as [X Y]. fold m in X, Y. split; [exact X|]. intros E. destruct (Y E) as [->|Z]; [left; reflexivity|auto]. }
  intros m' e' R. destruct (Z.eq_dec m' 0) as [->|M].
  { assert (E: (amount 0 e' == amount 0 e)%Q) by (unfold amount; ring). rewrite E. apply I. }
  destruct (Z.le_gt_cases e e') as [L|L].
  { assert (E: (amount m' e' == amount (m' * 2 ^ (e' - e)) e)%Q) by (rewrite amount_shift by lia; replace (e + (e' - e)) with e' by lia; reflexivity). rewrite E. apply I. }
  destruct C as [C|C]; [exfalso; unfold representable in R; lia|].
  assert (X: (amount m' e' < amount (2 ^ 52) e)%Q).
  { eapply Qlt_le_trans; [apply (@amount_lt m' (2 ^ 53)); unfold representable in R; lia|].
    change (2 ^ 53) with (1 * 2 ^ 53). change (2 ^ 52) with (1 * 2 ^ 52). rewrite !amount_shift, !amount_one by lia. apply Qpower_le_compat_l; [lia|lra]. }
  assert (Y: (Qabs (v - amount m e) < Qabs (v - amount m' e'))%Q).
  { eapply Qle_lt_trans; [apply (proj1 (I (2 ^ 52)))|]. rewrite !Qabs_pos by lra. lra. }
  split; [lra|]. intros E. rewrite E in Y. lra.
Qed.
Theorem round_nearest : nearest v (round_f64 false num den).
Proof.
  unfold round_f64. destruct (Z.eqb_spec num 0) as [X|_]; [lia|]. fold k. fold e0. cbn [fst snd]. fold (sn e0) (sd e0). fold e1. fold (sn e1) (sd e1).
  destruct e1_spec as (A & B & C). destruct (rounded A B C) as (D & F & I). set (m := div_half_even (sn e1) (sd e1)) in *.
  assert (OV: (overflow == amount (2 ^ 54 - 1) 970)%Q) by (unfold overflow, amount; change (2 ^ 54 - 1) with (2 ^ 53 + (2 ^ 53 - 1)); vm_compute; reflexivity).
  assert (OW: (overflow <= amount (2 ^ 52) 972)%Q) by (vm_compute; discriminate).
  destruct (@half_even (sn e1) (sd e1)) as (H1 & H2 & H3); [pose proof (sn_pos e1); lia|exact (sd_pos e1)|]. fold m in H1, H2, H3.
  assert (UP: 971 < e1 -> (overflow <= v)%Q).
  { intros X. destruct C as [C|C]; [lia|]. eapply Qle_trans; [exact OW|]. eapply Qle_trans; [|exact C].
    change (2 ^ 52) with (1 * 2 ^ 52). rewrite !amount_shift, !amount_one by lia. apply Qpower_le_compat_l; [lia|lra]. }
  assert (DN: e1 <= 970 -> (v < overflow)%Q).
  { intros X. eapply Qlt_trans; [exact A|]. rewrite OV. eapply Qle_lt_trans; [|apply (@amount_lt (2 ^ 53)); lia].
    change (2 ^ 53) with (1 * 2 ^ 53). rewrite !amount_shift, !amount_one by lia. apply Qpower_le_compat_l; [lia|lra]. }
  assert (OE: e1 = 971 -> (overflow <= v)%Q <-> m = 2 ^ 53).
  { intros E. pose proof (sd_pos 970) as S. rewrite OV, cmp_le. rewrite E in *.
    assert (sn 970 = sn 971 /\ sd 971 = 2 * sd 970) as [K1 K2].
    { unfold sn, sd. split; [reflexivity|]. change (Z.max 0 971) with (1 + 970). rewrite Z.pow_add_r by lia. change (Z.max 0 970) with 970. lia. }
    rewrite K1. apply cmp_lt in A. split; intros X; [|nia].
    assert (m = 2 ^ 53 \/ m = 2 ^ 53 - 1 \/ m < 2 ^ 53 - 1) as [Y|[Y|Y]] by lia; [exact Y| |nia].
    exfalso. assert (Z.even m = true) by (apply H3; nia). rewrite Y in H. discriminate H. }
  assert (E53: m = 2 ^ 53 -> (amount m e1 == amount (2 ^ 52) (e1 + 1))%Q).
  { intros ->. change (2 ^ 53) with (2 ^ 52 * 2 ^ 1). apply amount_shift. lia. }
  destruct (Z.eqb_spec m (2 ^ 53)) as [M|M].
  - change (2 ^ 52 =? 0) with false. cbv iota. destruct (Z.ltb_spec 971 (e1 + 1)).
    + split; [reflexivity|]. assert (e1 = 971 \/ 971 < e1) as [X|X] by lia; [apply OE; assumption|auto].
    + split; [reflexivity|]. split; [right; left; lia|]. split; [apply DN; lia|]. intros m' e' R. specialize (I m' e' R). rewrite <- (E53 M). split; [apply I|auto].
  - destruct (Z.eqb_spec m 0) as [Z0|Z0].
    + destruct F as [F|F]; [|lia]. split; [reflexivity|]. split; [left; lia|]. split; [apply DN; lia|].
      intros m' e' R. specialize (I m' e' R). assert (E: (amount m e1 == amount 0 0)%Q) by (rewrite Z0; unfold amount; ring). rewrite <- E. split; [apply I|auto].
    + destruct (Z.ltb_spec 971 e1); [split; [reflexivity|apply UP; lia]|].
      split; [reflexivity|]. split; [unfold representable; lia|]. split; [|exact I].
      assert (e1 = 971 \/ e1 <= 970) as [X|X] by lia; [|apply DN; exact X]. apply Qnot_le_lt. intros Y. apply OE in Y; [|exact X]. contradiction.
Qed.
End round.

Lemma nearest_eq u v f : (u == v)%Q -> nearest u f -> nearest v f.
Proof.
  intros E. destruct f; unfold nearest.
  - intros (A & B & C & D). split; [exact A|]. split; [exact B|]. split; [rewrite <- E; exact C|]. intros m' e' R. specialize (D m' e' R). rewrite <- E. exact D.
  - rewrite E. auto.
Qed.
Lemma nearest_zero : nearest 0 (Fin false 0 0).
Proof.
  split; [reflexivity|]. split; [left; auto|]. split; [reflexivity|]. intros m' e' R.
  assert (E: (Qabs (0 - amount 0 0) == 0)%Q) by reflexivity. rewrite E. split; [apply Qabs_nonneg|]. intros X. right. reflexivity.
Qed.
(** anything below half the smallest float is rounded to zero *)
Lemma nearest_tiny v : (0 <= v)%Q -> (v < 2 ^ (-1075))%Q -> nearest v (Fin false 0 0).
Proof.
  intros A B. split; [reflexivity|]. split; [left; auto|]. split; [eapply Qlt_trans; [exact B|reflexivity]|].
  intros m' e' R. assert (E: (v - amount 0 0 == v)%Q) by (unfold amount; ring). rewrite E, (Qabs_pos v A).
  destruct (Z.eq_dec m' 0) as [->|M].
  { assert (F: (v - amount 0 e' == v)%Q) by (unfold amount; ring). rewrite F, (Qabs_pos v A). split; [lra|]. intros _. right. reflexivity. }
  assert (X: (2 ^ (-1074) <= amount m' e')%Q).
  { unfold amount. assert (L: -1074 <= e' /\ 1 <= m') by (unfold representable in R; lia). destruct L as [L1 L2].
    eapply Qle_trans; [apply (@Qpower_le_compat_l 2 (-1074) e'); [lia|lra]|]. rewrite <- (Qmult_1_l (2 ^ e')) at 1. apply Qmult_le_r; [apply two_pos|]. exact (proj1 (injl 1 m') L2). }
  assert (Y: (2 ^ (-1074) == 2 * 2 ^ (-1075))%Q) by reflexivity. rewrite Y in X. clear Y.
  assert (Z: (v < Qabs (v - amount m' e'))%Q). { rewrite Qabs_Qminus, Qabs_pos by lra. lra. }
  split; [lra|]. intros W. rewrite <- W in Z. lra.
Qed.
Lemma ten_pos x : (0 < 10 ^ x)%Q. Proof. apply Qpower_0_lt. reflexivity. Qed.
Lemma ten_Z x : 0 <= x -> (10 ^ x == inject_Z (10 ^ x)%Z)%Q. Proof. intros H. rewrite Zpower_Qpower by lia. reflexivity. Qed.
Lemma dec_nearest d x : 0 <= d -> nearest (inject_Z d * 10 ^ x) (dec_to_f64 d x).
Proof.
  intros Hd. unfold dec_to_f64. destruct (Z.eqb_spec d 0) as [->|D].
  { apply nearest_eq with 0%Q; [ring|exact nearest_zero]. }
  assert (D1: 1 <= d) by lia. apply (proj1 (injl _ _)) in D1. change (inject_Z 1) with 1%Q in D1.
  destruct (Z.ltb_spec 400 x) as [X|X].
  { split; [reflexivity|]. apply Qle_trans with (10 ^ 400)%Q; [vm_compute; discriminate|].
    apply Qle_trans with (10 ^ x)%Q; [apply Qpower_le_compat_l; [lia|lra]|]. rewrite <- (Qmult_1_l (10 ^ x)) at 1. apply Qmult_le_r; [apply ten_pos|exact D1]. }
  destruct (Z.ltb_spec (x + Z.log2 d) (-1500)) as [Y|Y].
  { apply nearest_tiny; [apply Qmult_le_0_compat; [lra|apply Qlt_le_weak, ten_pos]|].
    pose proof (Z.log2_nonneg d) as L. destruct (Z.log2_spec d ltac:(lia)) as [_ G]. rewrite <- Z.add_1_r in G. apply (proj1 (injt _ _)) in G. rewrite <- two_Z in G by lia.
    assert (T: (10 ^ x <= 2 ^ x)%Q).
    { assert (E: (10 ^ x == 2 ^ x * 5 ^ x)%Q) by (rewrite <- Qmult_power; reflexivity). rewrite E. rewrite <- (Qmult_1_r (2 ^ x)) at 2.
      apply Qmult_le_l; [apply two_pos|]. apply (@Qpower_le_compat_l 5 x 0); [lia|lra]. }
    apply Qlt_le_trans with (2 ^ (Z.log2 d + 1) * 10 ^ x)%Q; [apply Qmult_lt_r; [apply ten_pos|exact G]|].
    apply Qle_trans with (2 ^ (Z.log2 d + 1) * 2 ^ x)%Q; [apply Qmult_le_l; [apply two_pos|exact T]|].
    rewrite <- two_add. apply Qpower_le_compat_l; [lia|lra]. }
  destruct (Z.leb_spec 0 x) as [Z|Z].
  - eapply nearest_eq; [|apply (@round_nearest (d * 10 ^ x) 1); [apply Z.mul_pos_pos; [lia|apply Z.pow_pos_nonneg; lia]|lia]].
    rewrite inject_Z_mult, <- ten_Z by lia. change (inject_Z 1) with 1%Q. field.
  - eapply nearest_eq; [|apply (@round_nearest d (10 ^ (- x))); [lia|apply Z.pow_pos_nonneg; lia]].
    rewrite <- ten_Z, Qpower_opp by lia. pose proof (ten_pos x). field. lra.
Qed.

Lemma nearest_tiny_unique v f : (0 <= v)%Q -> (v < 2 ^ (-1075))%Q -> nearest v f -> f = Fin false 0 0.
Proof.
  intros A B. destruct f as [n m e|n]; unfold nearest.
  - intros (-> & R & _ & H). destruct (H 0 0) as [H1 _]; [left; auto|]. destruct (Z.eq_dec m 0) as [->|M].
    { unfold representable in R. assert (e = 0) as -> by lia. reflexivity. }
    exfalso. assert (E: (v - amount 0 0 == v)%Q) by (unfold amount; ring). rewrite E, (Qabs_pos v A) in H1.
    assert (X: (2 ^ (-1074) <= amount m e)%Q).
    { unfold amount. assert (L: -1074 <= e /\ 1 <= m) by (unfold representable in R; lia). destruct L as [L1 L2].
      eapply Qle_trans; [apply (@Qpower_le_compat_l 2 (-1074) e); [lia|lra]|]. rewrite <- (Qmult_1_l (2 ^ e)) at 1. apply Qmult_le_r; [apply two_pos|]. exact (proj1 (injl 1 m) L2). }
    assert (Y: (2 ^ (-1074) == 2 * 2 ^ (-1075))%Q) by reflexivity. rewrite Y in X. clear Y.
    rewrite Qabs_Qminus, Qabs_pos in H1 by lra. lra.
  - intros (_ & H). exfalso. assert (X: (2 ^ (-1075) < overflow)%Q) by reflexivity. lra.
Qed.

(** ** Text *)
Definition digits (ds : list Z) : Prop := Forall (fun d => 0 <= d <= 9) ds.
Lemma is_digit d : 0 <= d <= 9 -> isDecimalDigit (48 + d) = true.
Proof. intros H. unfold isDecimalDigit, in_range. change ("0"%ch) with 48. change ("9"%ch) with 57. lia. Qed.
Lemma span_decimals ds s : digits ds -> isDecimalDigit (first_byte s) = false -> span_digits (decimals ds ++ s) = (decimals ds, s).
Proof.
  intros H N. induction H as [|d ds Hd H IH]; cbn [decimals map app span_digits].
  - destruct s as [|b s]; [reflexivity|]. cbn [span_digits first_byte] in *. rewrite N. reflexivity.
  - replace (isDecimalDigit (48 + d)) with true by (symmetry; apply is_digit; lia). fold (decimals ds). rewrite IH. reflexivity.
Qed.
Lemma digits_read ds a : digits ds -> parse_digits 10 a (decimals ds) = Some (fold_left (fun a d => a * 10 + d) ds a).
Proof.
  intros H. revert a. induction H as [|d ds Hd H IH]; intros a; [reflexivity|]. cbn [decimals map parse_digits fold_left].
  assert (E: digit_val (48 + d) = Some d). { unfold digit_val. change (in_range "0"%ch (48 + d) "9"%ch) with (isDecimalDigit (48 + d)). rewrite is_digit by lia. change ("0"%ch) with 48. f_equal. lia. }
  rewrite E. destruct (Z.ltb_spec d 10); [|lia]. apply IH.
Qed.
Lemma dec_read ds : digits ds -> dec_value (decimals ds) = value 10 ds.
Proof. intros H. unfold dec_value, value. rewrite (digits_read 0 H). reflexivity. Qed.
Lemma value_grow ds a : digits ds -> 0 <= a -> a <= fold_left (fun a d => a * 10 + d) ds a.
Proof. intros H. revert a. induction H as [|d ds Hd H IH]; intros a Ha; cbn [fold_left]; [lia|]. specialize (IH (a * 10 + d)). lia. Qed.
Lemma exp_read ds a : digits ds -> 0 <= a < 100000 ->
  let v := fold_left (fun a d => a * 10 + d) ds a in
  exp_value a (decimals ds) = v /\ v < 100000 \/ 10000 <= exp_value a (decimals ds) /\ 100000 <= v.
Proof.
  intros H. revert a. induction H as [|d ds Hd H IH]; intros a Ha; cbn [fold_left decimals map exp_value]; [left; lia|]. change ("0"%ch) with 48.
  destruct (Z.ltb_spec a 10000) as [L|L].
  - replace (a * 10 + (48 + d - 48)) with (a * 10 + d) by lia. apply IH. lia.
  - right. split.
    + clear - L H. revert a L. induction ds as [|x ds IH]; intros a L; cbn [exp_value decimals map]; [lia|].
      inversion H; subst. apply IH; [assumption|]. destruct (Z.ltb_spec a 10000); lia.
    + pose proof (@value_grow ds (a * 10 + d) H). lia.
Qed.
(** what the text of a float is read as *)
Lemma parse_text ds fs x e : digits ds -> ds <> [] -> digits fs -> exponent_of x e ->
  exists y, parse_decimal (decimals ds ++ fraction fs ++ e) = Some (value 10 (ds ++ fs), y - zlen fs)
    /\ (Z.abs x < 100000 /\ y = x \/ 100000 <= x /\ 10000 <= y \/ x <= -100000 /\ y <= -10000).
Proof.
  intros Hd Nd Hf He.
  assert (X: isDecimalDigit (first_byte e) = false /\ first_byte e <> "."%ch /\ exists y, parse_exponent e = Some y /\ (Z.abs x < 100000 /\ y = x \/ 100000 <= x /\ 10000 <= y \/ x <= -100000 /\ y <= -10000)).
  { destruct He as [|c sign xs Hc Hs Hx Nx].
    - split; [reflexivity|]. split; [discriminate|]. exists 0. split; [reflexivity|]. lia.
    - split; [destruct Hc as [-> | ->]; reflexivity|]. split; [destruct Hc as [-> | ->]; discriminate|].
      destruct (@exp_read xs 0 Hx ltac:(lia)) as [K|K]; cbv zeta in K; fold (value 10 xs) in K.
      all: assert (G: 0 <= value 10 xs) by (apply (@value_grow xs 0 Hx); lia).
      all: assert (SP: span_digits (decimals xs) = (decimals xs, [])) by (rewrite <- (app_nil_r (decimals xs)) at 1; apply span_decimals; [exact Hx|reflexivity]).
      all: assert (ND: decimals xs <> []) by (destruct xs; [congruence|discriminate]).
      all: exists (if list_eq_dec Z.eq_dec sign ["-"%ch] then - exp_value 0 (decimals xs) else exp_value 0 (decimals xs)).
      all: split; [|destruct (list_eq_dec Z.eq_dec sign ["-"%ch]); lia].
      all: unfold parse_exponent; replace ((c =? "e"%ch) || (c =? "E"%ch)) with true by (destruct Hc as [-> | ->]; reflexivity).
      all: destruct Hs as [-> | [-> | ->]]; cbn [app].
      all: try (rewrite SP; destruct (decimals xs); [congruence|reflexivity]).
      all: clear K G; destruct xs as [|d0 xs]; [congruence|]; inversion Hx; subst; cbn [decimals map] in *; fold (decimals xs) in *.
      all: replace (48 + d0 =? "-"%ch) with false by (symmetry; apply Z.eqb_neq; change ("-"%ch) with 45; lia); replace (48 + d0 =? "+"%ch) with false by (symmetry; apply Z.eqb_neq; change ("+"%ch) with 43; lia); cbv iota.
      all: repeat match goal with |- context [?a =? ?b] => let t := eval compute in (a =? b) in change (a =? b) with t end; cbv iota; rewrite SP; reflexivity. }
  destruct X as (X1 & X2 & y & X3 & X4). exists y. split; [|exact X4]. unfold parse_decimal.
  assert (F: isDecimalDigit (first_byte (fraction fs ++ e)) = false) by (destruct fs; [exact X1|reflexivity]).
  rewrite (span_decimals Hd F). destruct fs as [|f fs].
  - cbn [fraction app]. rewrite app_nil_r. destruct e as [|c e].
    + cbn [app]. rewrite app_nil_r. rewrite X3, dec_read by exact Hd. destruct ds; [congruence|]. reflexivity.
    + cbn [first_byte] in X2. destruct (Z.eqb_spec c "."%ch); [contradiction|]. rewrite app_nil_r, X3, dec_read by exact Hd. destruct ds; [congruence|]. reflexivity.
  - unfold fraction. cbn [app]. rewrite Z.eqb_refl. rewrite (span_decimals Hf X1).
    replace (decimals ds ++ decimals (f :: fs)) with (decimals (ds ++ f :: fs)) by (unfold decimals; apply map_app).
    rewrite X3, dec_read by (apply Forall_app; auto). replace (zlen (decimals (f :: fs))) with (zlen (f :: fs)) by (unfold zlen, decimals; rewrite map_length; reflexivity).
    destruct ds; [congruence|]. reflexivity.
Qed.
Lemma value_below ds a n : digits ds -> 0 <= a < n -> 0 <= fold_left (fun a d => a * 10 + d) ds a < n * 10 ^ zlen ds.
Proof.
  intros H. revert a n. induction H as [|d ds Hd H IH]; intros a n Ha; cbn [fold_left]; [cbn; lia|].
  replace (zlen (d :: ds)) with (1 + zlen ds) by (unfold zlen; cbn [List.length]; lia). rewrite Z.pow_add_r by (unfold zlen; lia). rewrite Z.mul_assoc. apply IH. lia.
Qed.
Theorem float_nearest ds fs x e : digits ds -> ds <> [] -> digits fs -> exponent_of x e ->
  Z.abs x < 100000 \/ zlen (ds ++ fs) <= 9000 -> nearest (number ds fs x) (parse_float (decimals ds ++ fraction fs ++ e)).
Proof.
  intros Hd Nd Hf He HC. destruct (parse_text Hd Nd Hf He) as (y & E & HY). unfold parse_float, number. rewrite E.
  assert (HA: digits (ds ++ fs)) by (apply Forall_app; auto).
  destruct (@value_below _ 0 1 HA ltac:(lia)) as [V0 V1]. fold (value 10 (ds ++ fs)) in V0, V1. rewrite Z.mul_1_l in V1.
  assert (ZL: 0 <= zlen fs <= zlen (ds ++ fs)) by (unfold zlen; rewrite app_length; lia).
  destruct HC as [HC|HC]; [destruct HY as [[_ ->]|HY]; [apply dec_nearest; exact V0|lia]|]. destruct HY as [[_ ->]|HY]; [apply dec_nearest; exact V0|].
  set (d := value 10 (ds ++ fs)) in *. destruct HY as [[HX HY]|[HX HY]].
  - pose proof (@dec_nearest d (x - zlen fs) V0) as N. replace (dec_to_f64 d (y - zlen fs)) with (dec_to_f64 d (x - zlen fs)); [exact N|].
    unfold dec_to_f64. destruct (d =? 0); [reflexivity|]. destruct (Z.ltb_spec 400 (x - zlen fs)); [|lia]. destruct (Z.ltb_spec 400 (y - zlen fs)); [reflexivity|lia].
  - assert (S: forall w, w <= -10000 -> (0 <= inject_Z d * 10 ^ (w - zlen fs))%Q /\ (inject_Z d * 10 ^ (w - zlen fs) < 2 ^ (-1075))%Q).
    { intros w W. apply (proj1 (injl _ _)) in V0. apply (proj1 (injt _ _)) in V1. change (inject_Z 0) with 0%Q in V0. rewrite <- ten_Z in V1 by (unfold zlen; lia).
      split; [apply Qmult_le_0_compat; [exact V0|apply Qlt_le_weak, ten_pos]|].
      eapply Qlt_le_trans; [apply Qmult_lt_r; [apply ten_pos|exact V1]|]. rewrite <- Qpower_plus by discriminate.
      eapply Qle_trans; [apply (@Qpower_le_compat_l 10 _ (-1000)); [lia|lra]|]. vm_compute. discriminate. }
    destruct (S x ltac:(lia)) as [S1 S2]. destruct (S y HY) as [S3 S4].
    rewrite (nearest_tiny_unique S3 S4 (@dec_nearest d (y - zlen fs) V0)). apply nearest_tiny; assumption.
Qed.

(** ** Only one float is the nearest *)
Lemma rep_order m e m' e' : representable m e -> representable m' e' -> m <> 0 -> (amount m e < amount m' e')%Q -> (amount (m + 1) e <= amount m' e')%Q.
Proof.
  intros R R' M H. destruct (Z.le_gt_cases e e') as [L|L].
  - assert (E: (amount m' e' == amount (m' * 2 ^ (e' - e)) e)%Q) by (rewrite amount_shift by lia; replace (e + (e' - e)) with e' by lia; reflexivity).
    rewrite E in *. apply amount_le. assert (m < m' * 2 ^ (e' - e)); [|lia]. apply injt. unfold amount in H. apply Qmult_lt_r in H; [exact H|apply two_pos].
  - exfalso. destruct (Z.eq_dec m' 0) as [->|M'].
    { assert (E: (amount 0 e' == amount 0 e)%Q) by (unfold amount; ring). rewrite E in H. assert (X: (amount 0 e <= amount m e)%Q) by (apply amount_le; unfold representable in R; lia). lra. }
    assert (X: (amount m' e' < amount m e)%Q).
    { eapply Qlt_le_trans; [apply (@amount_lt m' (2 ^ 53)); unfold representable in R'; lia|].
      apply Qle_trans with (amount (2 ^ 52) e); [|apply amount_le; unfold representable in R, R'; lia].
      change (2 ^ 53) with (1 * 2 ^ 53). change (2 ^ 52) with (1 * 2 ^ 52). rewrite !amount_shift, !amount_one by lia. apply Qpower_le_compat_l; [lia|lra]. }
    lra.
Qed.
Lemma rep_equal m e m' e' : representable m e -> representable m' e' -> (amount m e == amount m' e')%Q -> m = m' /\ e = e'.
Proof.
  assert (G: forall m e m' e', representable m e -> representable m' e' -> e <= e' -> (amount m e == amount m' e')%Q -> m = m' /\ e = e').
  { clear. intros m e m' e' R R' L H.
    assert (E: (amount m' e' == amount (m' * 2 ^ (e' - e)) e)%Q) by (rewrite amount_shift by lia; replace (e + (e' - e)) with e' by lia; reflexivity).
    rewrite E in H. unfold amount in H. apply Qmult_inj_r in H; [|pose proof (two_pos e); lra]. apply (proj1 (inject_Z_injective _ _)) in H.
    destruct (Z.eq_dec e e') as [->|N]; [rewrite Z.sub_diag in H; lia|]. pose proof (Z.pow_le_mono_r 2 1 (e' - e) ltac:(lia) ltac:(lia)) as P.
    unfold representable in R, R'. destruct R as [R|[R|R]]; destruct R' as [R'|[R'|R']]; try nia. }
  intros R R' H. destruct (Z.le_gt_cases e e'); [apply G; auto|]. destruct (@G m' e' m e); auto; [lia|symmetry; exact H].
Qed.
Theorem nearest_unique v f g : nearest v f -> nearest v g -> f = g.
Proof.
  destruct f as [n m e|n], g as [n' m' e'|n']; unfold nearest.
  2:{ intros (_ & _ & A & _) (_ & B). lra. }
  2:{ intros (_ & A) (_ & _ & B & _). lra. }
  2:{ intros (-> & _) (-> & _). reflexivity. }
  intros (-> & R & _ & H) (-> & R' & _ & H'). destruct (H _ _ R') as [A1 A2]. destruct (H' _ _ R) as [B1 B2].
  assert (E: (Qabs (v - amount m e) == Qabs (v - amount m' e'))%Q) by lra.
  assert (X: (amount m e == amount m' e')%Q \/ (Z.even m = true /\ Z.even m' = true)).
  { destruct (A2 E) as [X|X]; [auto|]. symmetry in E. destruct (B2 E) as [Y|Y]; [left; symmetry; exact Y|auto]. }
  destruct (Qeq_dec (amount m e) (amount m' e')) as [N|N]. { destruct (rep_equal R R' N) as [-> ->]. reflexivity. }
  destruct X as [X|[X Y]]; [contradiction|]. exfalso. cut (forall m e m' e', representable m e -> representable m' e' -> Z.even m = true -> Z.even m' = true -> (amount m e < amount m' e')%Q ->
    (Qabs (v - amount m e) == Qabs (v - amount m' e'))%Q -> (forall a b, representable a b -> (Qabs (v - amount m e) <= Qabs (v - amount a b))%Q) -> False).
  { intros K. destruct (Qlt_le_dec (amount m e) (amount m' e')) as [L|L]; [apply (K m e m' e'); auto; intros; apply H; auto|].
    destruct (Qle_lt_or_eq _ _ L) as [L1|L1]; [apply (K m' e' m e); auto; [symmetry; exact E|intros; apply H'; auto]|].
    apply N. symmetry. exact L1. }
  clear. intros m e m' e' R R' Em Em' L E H.
  assert (S: exists a b, representable a b /\ Z.even a = false /\ (amount m e < amount a b)%Q /\ (amount a b <= amount m' e')%Q).
  { destruct (Z.eq_dec m 0) as [->|M].
    - exists 1, (-1074). split; [right; right; lia|]. split; [reflexivity|]. split; [reflexivity|].
      assert (m' <> 0). { intros ->. assert (F: (amount 0 e == amount 0 e')%Q) by (unfold amount; ring). rewrite F in L. lra. }
      assert (Q: -1074 <= e' /\ 1 <= m') by (unfold representable in R'; lia). destruct Q as [Q1 Q2].
      apply Qle_trans with (amount 1 e'); [rewrite !amount_one; apply Qpower_le_compat_l; [lia|lra]|apply amount_le; lia].
    - exists (m + 1), e. assert (O: Z.even (m + 1) = false) by (rewrite Z.add_1_r, Z.even_succ, <- Z.negb_even, Em; reflexivity).
      split. { assert (m + 1 <> 2 ^ 53) by (intros X; rewrite X in O; discriminate O). unfold representable in *. lia. }
      split; [exact O|]. split; [apply amount_lt; lia|]. apply rep_order; assumption. }
  destruct S as (a & b & Ra & Oa & L1 & L2).
  assert (L3: (amount a b < amount m' e')%Q).
  { destruct (Qle_lt_or_eq _ _ L2) as [X|X]; [exact X|]. destruct (rep_equal Ra R' X) as [-> _]. congruence. }
  specialize (H a b Ra). revert E H. apply Qabs_case; apply Qabs_case; apply Qabs_case; intros; lra.
Qed.
