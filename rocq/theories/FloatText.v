(** * Proofs about the text of a float in PN *)
From Verif Require Import Base Float Pn SpecLex SpecFloat PnProof FloatProof.
From Coq Require Import QArith Qabs Qpower Lqa.
Local Open Scope Z_scope.

Lemma zlen_cons A (x : A) l : zlen (x :: l) = 1 + zlen l.
Proof. unfold zlen. cbn [List.length]. lia. Qed.
Lemma zlen_app A (a b : list A) : zlen (a ++ b) = zlen a + zlen b.
Proof. unfold zlen. rewrite app_length. lia. Qed.
Lemma zlen_nn A (l : list A) : 0 <= zlen l. Proof. unfold zlen. lia. Qed.
Arguments zlen_nn {A} l.
Lemma zlen_dec ds : zlen (decimals ds) = zlen ds.
Proof. unfold zlen, decimals. rewrite map_length. reflexivity. Qed.
Lemma zlen_rep A (x : A) n : zlen (repeat x n) = Z.of_nat n.
Proof. unfold zlen. rewrite repeat_length. reflexivity. Qed.

Lemma value_from ds a : fold_left (fun a d => a * 10 + d) ds a = a * 10 ^ zlen ds + value 10 ds.
Proof.
  unfold value. revert a. induction ds as [|d ds IH]; intros a; [cbn; lia|]. cbn [fold_left]. rewrite IH, (IH (0 * 10 + d)), zlen_cons.
  rewrite Z.pow_add_r by (pose proof (zlen_nn ds); lia). lia.
Qed.
Lemma value_app a b : value 10 (a ++ b) = value 10 a * 10 ^ zlen b + value 10 b.
Proof. unfold value at 1. rewrite fold_left_app. apply value_from. Qed.
Lemma value_zeros n : value 10 (repeat 0 n) = 0.
Proof. unfold value. induction n; [reflexivity|exact IHn]. Qed.
Lemma value_cons d ds : value 10 (d :: ds) = d * 10 ^ zlen ds + value 10 ds.
Proof. change (d :: ds) with ([d] ++ ds). rewrite value_app. unfold value at 1. cbn [fold_left]. lia. Qed.
Lemma value_lt ds : digits ds -> 0 <= value 10 ds < 10 ^ zlen ds.
Proof. intros H. destruct (@value_below ds 0 1 H ltac:(lia)). unfold value. lia. Qed.
Lemma digits_zeros n : digits (repeat 0 n).
Proof. apply Forall_forall. intros d H. apply repeat_spec in H. lia. Qed.

(** format_nat *)
Lemma format_digits_dec fuel : forall n acc, 0 <= n -> n < 2 ^ Z.of_nat fuel -> (0 < fuel)%nat -> digits acc ->
  exists ds, digits ds /\ format_digits fuel n (decimals acc) = decimals (ds ++ acc) /\ value 10 ds = n /\ ds <> [] /\ (n = 0 \/ 0 < hd 0 ds).
Proof.
  induction fuel as [|fuel IH]; intros n acc H0 Hn Hf Ha; [lia|]. cbn [format_digits].
  pose proof (Z.mod_pos_bound n 10 ltac:(lia)) as B. pose proof (Z.div_mod n 10 ltac:(lia)) as D.
  change ("0"%ch + n mod 10) with (48 + n mod 10). change ((48 + n mod 10) :: decimals acc) with (decimals ((n mod 10) :: acc)).
  destruct (Z.eqb_spec (n / 10) 0) as [Hz|Hnz].
  - exists [n mod 10]. split; [repeat constructor; lia|]. split; [reflexivity|]. split; [unfold value; cbn [fold_left]; lia|]. split; [discriminate|]. cbn [hd]. lia.
  - pose proof (Z.div_pos n 10 H0 ltac:(lia)) as P.
    assert (Hlt: n / 10 < 2 ^ Z.of_nat fuel).
    { rewrite Nat2Z.inj_succ, Z.pow_succ_r in Hn by lia. apply Z.div_lt_upper_bound; [lia|]. pose proof (Z.pow_pos_nonneg 2 (Z.of_nat fuel)). lia. }
    destruct (IH (n / 10) ((n mod 10) :: acc)) as (ds & A1 & A2 & A3 & A4 & A5); [lia|exact Hlt| |constructor; [lia|exact Ha]|].
    { destruct fuel; [cbn in Hlt; lia|lia]. }
    exists (ds ++ [n mod 10]). rewrite A2. split; [apply Forall_app; split; [exact A1|repeat constructor; lia]|].
    split; [rewrite <- app_assoc; reflexivity|]. split; [rewrite value_app, A3; unfold value, zlen; cbn [fold_left List.length]; change (10 ^ Z.of_nat 1) with 10; lia|].
    split; [destruct ds; discriminate|]. right. destruct ds; [congruence|]. cbn [app hd] in *. lia.
Qed.
Lemma format_nat_dec n : 0 <= n -> exists ds, digits ds /\ format_nat n = decimals ds /\ value 10 ds = n /\ ds <> [] /\ (n = 0 \/ 0 < hd 0 ds).
Proof.
  intros H. destruct (@format_digits_dec (S (Z.to_nat (Z.log2 n))) n [] H (log2_bound H) ltac:(lia)) as (ds & A1 & A2 & A3); [constructor|].
  exists ds. rewrite app_nil_r in A2. auto.
Qed.
Lemma value_ge ds : digits ds -> 0 < hd 0 ds -> 10 ^ (zlen ds - 1) <= value 10 ds.
Proof.
  intros H P. destruct ds as [|d ds]; cbn [hd] in P; [lia|]. rewrite value_cons, zlen_cons. inversion H; subst.
  pose proof (value_lt H3). replace (1 + zlen ds - 1) with (zlen ds) by lia. pose proof (Z.pow_pos_nonneg 10 (zlen ds) ltac:(lia) (zlen_nn ds)). nia.
Qed.

(** digits and their trailing zeros *)
Definition solid (us : list Z) : Prop := us = [] \/ exists u d, us = u ++ [d] /\ 1 <= d <= 9.
Lemma split_zeros ds : digits ds -> exists us k, ds = us ++ repeat 0 k /\ solid us /\ digits us.
Proof.
  induction ds as [|d ds IH] using rev_ind; intros H.
  - exists [], O. split; [reflexivity|]. split; [left; reflexivity|constructor].
  - apply Forall_app in H as [H1 H2]. inversion H2; subst. destruct (Z.eq_dec d 0) as [->|N].
    + destruct (IH H1) as (us & k & -> & S & D). exists us, (Datatypes.S k). split; [|auto]. rewrite <- app_assoc. f_equal. symmetry. apply (repeat_cons k 0).
    + exists (ds ++ [d]), O. cbn [repeat]. rewrite app_nil_r. split; [reflexivity|]. split; [right; exists ds, d; split; [reflexivity|lia]|apply Forall_app; auto].
Qed.
Lemma decimals_app a b : decimals (a ++ b) = decimals a ++ decimals b. Proof. apply map_app. Qed.
Lemma decimals_rep k : decimals (repeat 0 k) = repeat "0"%ch k.
Proof. induction k; [reflexivity|]. cbn [repeat decimals map]. fold (decimals (repeat 0 k)). rewrite IHk. reflexivity. Qed.
Lemma rev_rep A (x : A) k : rev (repeat x k) = repeat x k.
Proof. induction k; [reflexivity|]. cbn [repeat rev]. rewrite IHk. symmetry. apply repeat_cons. Qed.
Lemma drop_rep k s : drop_zeros (repeat "0"%ch k ++ s) = drop_zeros s.
Proof. induction k; [reflexivity|]. cbn [repeat app drop_zeros]. rewrite Z.eqb_refl. exact IHk. Qed.
Lemma count_rep k c s : c <> "0"%ch -> count_zeros (repeat "0"%ch k ++ c :: s) = (k, c :: s).
Proof.
  intros N. induction k; cbn [repeat app count_zeros]; [destruct (Z.eqb_spec c "0"%ch); [contradiction|reflexivity]|].
  rewrite Z.eqb_refl, IHk. reflexivity.
Qed.
Lemma trim_spec us k : solid us -> trim_zeros (decimals (us ++ repeat 0 k)) = decimals us.
Proof.
  intros S. unfold trim_zeros. rewrite decimals_app, rev_app_distr, decimals_rep, rev_rep, drop_rep. destruct S as [->|(u & d & -> & Hd)]; [reflexivity|].
  rewrite decimals_app, rev_app_distr. cbn [decimals map rev app drop_zeros].
  destruct (Z.eqb_spec (48 + d) "0"%ch) as [E|E]; [change ("0"%ch) with 48 in E; lia|]. cbn [rev]. rewrite rev_involutive. reflexivity.
Qed.
Lemma strip_spec u c k : c <> "0"%ch -> strip_tail (u ++ c :: repeat "0"%ch k) =
  if (0 <? Z.of_nat k) && in_range "1"%ch c "9"%ch then Some (u ++ [c])
  else if (1 <? Z.of_nat k) && (c =? "."%ch) then Some (u ++ [c; "0"%ch]) else None.
Proof.
  intros N. unfold strip_tail. rewrite rev_app_distr. cbn [rev]. rewrite rev_rep, <- app_assoc. cbn [app]. rewrite count_rep by exact N.
  cbn [rev app]. rewrite rev_involutive, <- app_assoc. reflexivity.
Qed.
Lemma strip_solid s us : solid us -> us <> [] -> strip_tail (s ++ decimals us) = None.
Proof.
  intros [->|(u & d & -> & Hd)] N; [congruence|]. rewrite decimals_app, app_assoc. change (decimals [d]) with ((48 + d) :: repeat "0"%ch 0).
  rewrite strip_spec by (change ("0"%ch) with 48; lia). reflexivity.
Qed.
Lemma strip_some s us k : solid us -> us <> [] -> (0 < k)%nat -> strip_tail (s ++ decimals us ++ repeat "0"%ch k) = Some (s ++ decimals us).
Proof.
  intros [->|(u & d & -> & Hd)] N K; [congruence|]. rewrite decimals_app, <- app_assoc. cbn [decimals map app]. fold (decimals u). rewrite app_assoc.
  rewrite strip_spec by (change ("0"%ch) with 48; lia).
  destruct (Z.ltb_spec 0 (Z.of_nat k)); [|lia]. unfold in_range. change ("1"%ch) with 49. change ("9"%ch) with 57.
  destruct (Z.leb_spec 49 (48 + d)); [|lia]. destruct (Z.leb_spec (48 + d) 57); [|lia]. cbn [andb]. rewrite <- app_assoc. reflexivity.
Qed.

(** ** the digits of a value *)
Lemma find_dp fuel : forall num den dp, 0 < num -> 0 < den -> num < den -> den <= num * 10 ^ Z.of_nat fuel ->
  exists j, find_dp_small fuel num den dp = dp - j /\ 0 <= j /\ den <= num * 10 ^ (j + 1) /\ num * 10 ^ j < den.
Proof.
  induction fuel as [|fuel IH]; intros num den dp Hn Hd Hl Hf; [cbn in Hf; lia|]. cbn [find_dp_small].
  destruct (Z.leb_spec den (num * 10)) as [H|H].
  - exists 0. cbn. lia.
  - rewrite Nat2Z.inj_succ, Z.pow_succ_r in Hf by lia.
    destruct (IH (num * 10) den (dp - 1)) as (j & A1 & A2 & A3 & A4); try lia. exists (j + 1). split; [lia|]. split; [lia|].
    rewrite !Z.pow_add_r in * by lia. change (10 ^ 1) with 10 in *. lia.
Qed.
Lemma dec_point_spec num den : 0 < num -> 0 < den -> den <= num * 10 ^ 400 ->
  let dp := dec_point num den in (10 ^ (dp - 1) <= inject_Z num / inject_Z den)%Q /\ (inject_Z num / inject_Z den < 10 ^ dp)%Q.
Proof.
  intros Hn Hd Hs. unfold dec_point. pose proof (pos_q Hd) as D.
  assert (G1: forall a b, 0 <= a -> 0 <= b -> 10 ^ a * den <= num * 10 ^ b -> (10 ^ (a - b) <= inject_Z num / inject_Z den)%Q).
  { intros a b Ha Hb H. apply Qle_shift_div_l; [exact D|]. apply (Qmult_le_r _ _ (10 ^ b)); [apply ten_pos|].
    apply (proj1 (injl _ _)) in H. rewrite !inject_Z_mult, <- !ten_Z in H by lia.
    assert (E: (10 ^ (a - b) * inject_Z den * 10 ^ b == 10 ^ a * inject_Z den)%Q).
    { setoid_replace (10 ^ a)%Q with (10 ^ (a - b) * 10 ^ b)%Q; [ring|]. rewrite <- Qpower_plus by discriminate. replace (a - b + b) with a by lia. reflexivity. }
    rewrite E. exact H. }
  assert (G2: forall a b, 0 <= a -> 0 <= b -> num * 10 ^ b < 10 ^ a * den -> (inject_Z num / inject_Z den < 10 ^ (a - b))%Q).
  { intros a b Ha Hb H. apply Qlt_shift_div_r; [exact D|]. apply (Qmult_lt_r _ _ (10 ^ b)); [apply ten_pos|].
    apply (proj1 (injt _ _)) in H. rewrite !inject_Z_mult, <- !ten_Z in H by lia.
    assert (E: (10 ^ (a - b) * inject_Z den * 10 ^ b == 10 ^ a * inject_Z den)%Q).
    { setoid_replace (10 ^ a)%Q with (10 ^ (a - b) * 10 ^ b)%Q; [ring|]. rewrite <- Qpower_plus by discriminate. replace (a - b + b) with a by lia. reflexivity. }
    rewrite E. exact H. }
  destruct (Z.leb_spec den num) as [H|H].
  - assert (P: 1 <= num / den) by (apply Z.div_le_lower_bound; lia).
    destruct (@format_nat_dec (num / den) ltac:(lia)) as (ds & A1 & -> & A3 & A4 & A5). rewrite zlen_dec. destruct A5 as [A5|A5]; [lia|].
    pose proof (value_ge A1 A5) as L. pose proof (value_lt A1) as U. rewrite A3 in L, U.
    pose proof (Z.div_mod num den ltac:(lia)) as M. pose proof (Z.mod_pos_bound num den Hd) as B.
    assert (NL: 1 <= zlen ds) by (destruct ds; [congruence|rewrite zlen_cons; pose proof (zlen_nn ds); lia]).
    split.
    + replace (zlen ds - 1) with (zlen ds - 1 - 0) by lia. apply G1; [lia|lia|]. nia.
    + replace (zlen ds) with (zlen ds - 0) by lia. apply G2; [lia|lia|]. nia.
  - destruct (@find_dp 400 num den 0 Hn Hd H) as (j & -> & A2 & A3 & A4). { change (Z.of_nat 400) with 400. exact Hs. }
    split.
    + replace (0 - j - 1) with (0 - (j + 1)) by lia. apply G1; lia.
    + apply G2; lia.
Qed.
Lemma half_even_q a b : 0 <= a -> 0 < b -> (Qabs (inject_Z (div_half_even a b) - inject_Z a / inject_Z b) <= 1 # 2)%Q.
Proof.
  intros Ha Hb. destruct (half_even Ha Hb) as (H1 & H2 & _). set (m := div_half_even a b) in *. pose proof (pos_q Hb) as B.
  destruct H2 as [H2 H3]. apply (proj1 (injl _ _)) in H2. apply (proj1 (injl _ _)) in H3. unfold Zminus in H2, H3.
  rewrite !inject_Z_mult, !inject_Z_plus, !inject_Z_opp, !inject_Z_mult in H2. rewrite !inject_Z_mult, !inject_Z_plus, !inject_Z_opp, !inject_Z_mult in H3.
  change (inject_Z 2) with 2%Q in *.
  assert (E: (inject_Z m - inject_Z a / inject_Z b == (inject_Z m * inject_Z b - inject_Z a) / inject_Z b)%Q) by (field; lra).
  rewrite E. apply Qabs_Qle_condition. split; [apply Qle_shift_div_l; [exact B|lra]|apply Qle_shift_div_r; [exact B|lra]].
Qed.
Lemma ten_add a b : (10 ^ (a + b) == 10 ^ a * 10 ^ b)%Q. Proof. apply Qpower_plus. discriminate. Qed.

(** [n] digits of a value: the digits are solid and their number is as close as [n] digits allow *)
Lemma digits_spec n num den : 0 < n -> 0 < num -> 0 < den -> den <= num * 10 ^ 400 ->
  exists us dp, digits_with div_half_even n num den = (decimals us, dp) /\ digits us /\ solid us /\ us <> [] /\ 0 < hd 0 us /\ zlen us <= n /\
    let v := (inject_Z num / inject_Z den)%Q in
    (Qabs (inject_Z (value 10 us) * 10 ^ (dp - zlen us) - v) <= v * ((1 # 2) * 10 ^ (1 - n)))%Q /\ (v < 10 ^ dp)%Q.
Proof.
  intros Hn Hnum Hden Hs. destruct (dec_point_spec Hnum Hden Hs) as [L U]. unfold digits_with. set (dp := dec_point num den) in *. set (v := (inject_Z num / inject_Z den)%Q) in *.
  set (q := if 0 <=? n - dp then _ else _).
  assert (Q: (Qabs (inject_Z q - v * 10 ^ (n - dp)) <= 1 # 2)%Q /\ 0 <= q).
  { unfold q. destruct (Z.leb_spec 0 (n - dp)) as [K|K].
    - assert (P: 0 <= num * 10 ^ (n - dp)) by (apply Z.mul_nonneg_nonneg; [lia|apply Z.pow_nonneg; lia]).
      split; [|destruct (half_even P Hden); assumption]. pose proof (half_even_q P Hden) as H. rewrite inject_Z_mult, <- ten_Z in H by lia.
      assert (E: (v * 10 ^ (n - dp) == inject_Z num * 10 ^ (n - dp) / inject_Z den)%Q) by (unfold v; field; pose proof (pos_q Hden); lra). rewrite E. exact H.
    - pose proof (Z.pow_pos_nonneg 10 (- (n - dp)) ltac:(lia) ltac:(lia)) as P.
      split; [|destruct (@half_even num (den * 10 ^ (- (n - dp)))); [lia|nia|assumption]].
      pose proof (@half_even_q num (den * 10 ^ (- (n - dp))) ltac:(lia) ltac:(nia)) as H. rewrite inject_Z_mult, <- ten_Z in H by lia.
      assert (E: (v * 10 ^ (n - dp) == inject_Z num / (inject_Z den * 10 ^ (- (n - dp))))%Q).
      { rewrite Qpower_opp. unfold v. pose proof (pos_q Hden). pose proof (ten_pos (n - dp)). field. split; lra. }
      rewrite E. exact H. }
  destruct Q as [Q Q0]. apply Qabs_Qle_condition in Q as [Qa Qb].
  assert (VT: (10 ^ (n - 1) <= v * 10 ^ (n - dp))%Q /\ (v * 10 ^ (n - dp) < 10 ^ n)%Q).
  { pose proof (ten_pos (n - dp)) as T. split.
    - apply (Qmult_le_r _ _ (10 ^ (n - dp)) T) in L. rewrite <- ten_add in L. replace (dp - 1 + (n - dp)) with (n - 1) in L by lia. exact L.
    - apply (Qmult_lt_r _ _ (10 ^ (n - dp)) T) in U. rewrite <- ten_add in U. replace (dp + (n - dp)) with n in U by lia. exact U. }
  destruct VT as [VT1 VT2]. rewrite (@ten_Z (n - 1)) in VT1 by lia. rewrite (@ten_Z n) in VT2 by lia.
  assert (QL: 10 ^ (n - 1) <= q).
  { cut (2 * (10 ^ (n - 1)) <= 2 * q + 1); [lia|]. apply injl. rewrite inject_Z_plus, !inject_Z_mult. change (inject_Z 2) with 2%Q. change (inject_Z 1) with 1%Q. lra. }
  assert (QU: q <= 10 ^ n).
  { cut (2 * q < 2 * (10 ^ n) + 2); [lia|]. apply injt. rewrite inject_Z_plus, !inject_Z_mult. change (inject_Z 2) with 2%Q. lra. }
  clearbody q. pose proof (Z.pow_pos_nonneg 10 (n - 1) ltac:(lia) ltac:(lia)) as P1.
  destruct (format_nat_dec Q0) as (ds & A1 & -> & A3 & A4 & A5). destruct A5 as [A5|A5]; [lia|].
  pose proof (value_ge A1 A5) as VL. pose proof (value_lt A1) as VU. rewrite A3 in VL, VU.
  destruct (split_zeros A1) as (us & k & E & S & D). rewrite E, trim_spec by exact S. rewrite <- E, zlen_dec.
  assert (LN: zlen ds = n \/ (zlen ds = n + 1 /\ q = 10 ^ n)).
  { assert (n - 1 < zlen ds) by (apply (Z.pow_lt_mono_r_iff 10); [lia|apply zlen_nn|lia]).
    assert (zlen ds - 1 <= n) by (apply (Z.pow_le_mono_r_iff 10); lia).
    assert (zlen ds = n \/ zlen ds = n + 1) as [X|X] by lia; [auto|right]. split; [exact X|]. rewrite X in VL. replace (n + 1 - 1) with n in VL by lia. lia. }
  assert (V: q = value 10 us * 10 ^ Z.of_nat k). { rewrite <- A3, E, value_app, value_zeros, zlen_rep. lia. }
  assert (ZL: zlen ds = zlen us + Z.of_nat k) by (rewrite E, zlen_app, zlen_rep; reflexivity).
  assert (UN: us <> []) by (intros ->; unfold value in V; cbn in V; lia).
  assert (HD: 0 < hd 0 us) by (destruct us; [congruence|]; rewrite E in A5; exact A5).
  exists us, (if n <? zlen ds then dp + 1 else dp). split; [reflexivity|]. split; [exact D|]. split; [exact S|]. split; [exact UN|]. split; [exact HD|].
  assert (ZU: zlen us <= n).
  { destruct LN as [X|[X Y]]; [lia|]. enough (k <> 0%nat) by lia. intros ->. cbn [repeat] in E. rewrite app_nil_r in E. subst us. cbn in V. rewrite Z.mul_1_r in V.
    destruct S as [->|(u & d & -> & Hd)]; [congruence|]. rewrite zlen_app in X. unfold zlen in X at 2. cbn in X. rewrite value_app in V. unfold value in V at 2. unfold zlen in V at 1. cbn in V.
    replace n with (n - 1 + 1) in Y by lia. rewrite Z.pow_add_r in Y by lia. change (10 ^ 1) with 10 in Y. change (Z.pow_pos 10 1) with 10 in V. lia. }
  split; [exact ZU|]. cbv zeta. split.
  - assert (EX: (inject_Z (value 10 us) * 10 ^ ((if n <? zlen ds then dp + 1 else dp) - zlen us) == inject_Z q * 10 ^ (dp - n))%Q).
    { rewrite V, inject_Z_mult, <- ten_Z, <- Qmult_assoc, <- ten_add by lia.
      replace ((if n <? zlen ds then dp + 1 else dp) - zlen us) with (Z.of_nat k + (dp - n)); [reflexivity|].
      destruct LN as [X|[X _]]; destruct (Z.ltb_spec n (zlen ds)); try lia. }
    rewrite EX. apply Qle_trans with ((1 # 2) * 10 ^ (dp - n))%Q.
    + assert (F: (inject_Z q * 10 ^ (dp - n) - v == (inject_Z q - v * 10 ^ (n - dp)) * 10 ^ (dp - n))%Q).
      { setoid_replace ((inject_Z q - v * 10 ^ (n - dp)) * 10 ^ (dp - n))%Q with (inject_Z q * 10 ^ (dp - n) - v * (10 ^ (n - dp) * 10 ^ (dp - n)))%Q by ring.
        rewrite <- ten_add. replace (n - dp + (dp - n)) with 0 by lia. change (10 ^ 0)%Q with 1%Q. ring. }
      rewrite F, Qabs_pos_mult by apply ten_pos. apply Qmult_le_r; [apply ten_pos|]. apply Qabs_Qle_condition. split; [exact Qa|exact Qb].
    + setoid_replace (v * ((1 # 2) * 10 ^ (1 - n)))%Q with ((1 # 2) * (v * 10 ^ (1 - n)))%Q by ring. apply Qmult_le_l; [lra|].
      apply (Qmult_le_r _ _ (10 ^ (1 - n))) in L; [|apply ten_pos]. rewrite <- ten_add in L. replace (dp - 1 + (1 - n)) with (dp - n) in L by lia. exact L.
  - eapply Qlt_le_trans; [exact U|]. apply Qpower_le_compat_l; [|lra]. destruct (n <? zlen ds); lia.
Qed.

(** ** the text *)
Lemma fmt_exp_dec x : exists xs, fmt_exp x = (if x <? 0 then "-"%ch else "+"%ch) :: decimals xs /\ digits xs /\ xs <> [] /\ value 10 xs = Z.abs x.
Proof.
  unfold fmt_exp. destruct (@format_nat_dec (Z.abs x) ltac:(lia)) as (ds & A1 & -> & A3 & A4 & _). destruct (Z.abs x <? 10).
  - exists (0 :: ds). split; [reflexivity|]. split; [constructor; [lia|exact A1]|]. split; [discriminate|]. rewrite value_cons. lia.
  - exists ds. auto.
Qed.
Lemma split_e_app p r : existsb (Z.eqb "e"%ch) p = false -> split_e (p ++ "e"%ch :: r) = Some (p, "e"%ch :: r).
Proof.
  induction p as [|c p IH]; cbn [existsb app split_e]; [reflexivity|]. intros H. apply orb_false_iff in H as [H1 H2]. rewrite Z.eqb_sym, H1, IH by exact H2. reflexivity.
Qed.
Lemma split_e_none p : existsb (Z.eqb "e"%ch) p = false -> split_e p = None.
Proof. induction p as [|c p IH]; cbn [existsb split_e]; [reflexivity|]. intros H. apply orb_false_iff in H as [H1 H2]. rewrite Z.eqb_sym, H1, IH by exact H2. reflexivity. Qed.
Lemma strip_e p x : existsb (Z.eqb "e"%ch) p = false -> exists p' y ex, strip_zeroes (p ++ "e"%ch :: fmt_exp x) = p' ++ ex /\ exponent_of y ex /\ shortened x y /\ (p' = p \/ strip_tail p = Some p').
Proof.
  intros N. destruct (fmt_exp_dec x) as (xs & -> & X1 & X2 & X3). set (sg := if x <? 0 then "-"%ch else "+"%ch).
  assert (SG: [sg] = ["-"%ch] \/ [sg] = ["+"%ch]) by (unfold sg; destruct (x <? 0); auto).
  assert (EO: forall zs, digits zs -> zs <> [] -> exponent_of (if x <? 0 then - value 10 zs else value 10 zs) ("e"%ch :: sg :: decimals zs)).
  { intros zs Z1 Z2. pose proof (@exp_some "e"%ch [sg] zs (or_introl eq_refl) ltac:(tauto) Z1 Z2) as E. cbn [app] in E. unfold sg in E. destruct (x <? 0) eqn:EX; cbn in E |- *; try (unfold sg; rewrite EX); exact E. }
  assert (XV: (if x <? 0 then - value 10 xs else value 10 xs) = x) by (rewrite X3; destruct (Z.ltb_spec x 0); lia).
  destruct (split_zeros X1) as (us & k & E & S & D).
  assert (KEEP: strip_tail (p ++ "e"%ch :: sg :: decimals xs) = None -> exists p' y ex, strip_zeroes (p ++ "e"%ch :: sg :: decimals xs) = p' ++ ex /\ exponent_of y ex /\ shortened x y /\ (p' = p \/ strip_tail p = Some p')).
  { intros H. unfold strip_zeroes. rewrite H, split_e_app by exact N. exists (match strip_tail p with Some t => t | None => p end), x, ("e"%ch :: sg :: decimals xs).
    split; [destruct (strip_tail p); reflexivity|]. split; [rewrite <- XV; apply EO; assumption|]. split; [left; reflexivity|]. destruct (strip_tail p); auto. }
  destruct us as [|u0 us0] eqn:EU.
  - apply KEEP. cbn [app] in E. subst xs. rewrite decimals_rep. change (p ++ "e"%ch :: sg :: repeat "0"%ch k) with (p ++ ["e"%ch] ++ sg :: repeat "0"%ch k). rewrite app_assoc.
    rewrite strip_spec by (unfold sg; destruct (x <? 0); discriminate). unfold sg; destruct (x <? 0); cbn -[Z.of_nat]; rewrite !andb_false_r; reflexivity.
  - rewrite <- EU in *. assert (UN: us <> []) by congruence. destruct k as [|k].
    + apply KEEP. cbn [repeat] in E. rewrite app_nil_r in E. subst xs. change (p ++ "e"%ch :: sg :: decimals us) with (p ++ ["e"%ch; sg] ++ decimals us). rewrite app_assoc. apply strip_solid; assumption.
    + exists p, (if x <? 0 then - value 10 us else value 10 us), ("e"%ch :: sg :: decimals us). split.
      * unfold strip_zeroes. rewrite E, decimals_app, decimals_rep.
        change (p ++ "e"%ch :: sg :: decimals us ++ repeat "0"%ch (Datatypes.S k)) with (p ++ ["e"%ch; sg] ++ decimals us ++ repeat "0"%ch (Datatypes.S k)). rewrite app_assoc.
        rewrite strip_some by (auto; lia). rewrite <- app_assoc. reflexivity.
      * split; [apply EO; assumption|]. split; [|left; reflexivity]. right. exists (Z.of_nat (Datatypes.S k)). split; [lia|].
        rewrite E, value_app, value_zeros, zlen_rep in XV. destruct (x <? 0); lia.
Qed.
Lemma no_char c ds : c < 48 \/ 57 < c -> digits ds -> existsb (Z.eqb c) (decimals ds) = false.
Proof. intros Hc H. induction H as [|d ds Hd H IH]; [reflexivity|]. cbn [decimals map existsb]. fold (decimals ds). rewrite IH, orb_false_r. apply Z.eqb_neq. lia. Qed.
Lemma no_e_fraction fs : digits fs -> existsb (Z.eqb "e"%ch) (fraction fs) = false.
Proof. intros H. destruct fs; [reflexivity|]. unfold fraction. cbn [existsb]. rewrite no_char; [reflexivity| |exact H]. right. reflexivity. Qed.
Lemma number_zeros ds (fs : list Z) (k : nat) x : (number ds (fs ++ repeat 0%Z k)%list x == number ds fs x)%Q.
Proof.
  unfold number. rewrite !app_assoc, value_app, value_zeros, zlen_app, zlen_rep, Z.add_0_r, inject_Z_mult, <- ten_Z by lia.
  rewrite <- Qmult_assoc, <- ten_add. replace (Z.of_nat k + (x - (zlen fs + Z.of_nat k))) with (x - zlen fs) by lia. reflexivity.
Qed.
Lemma mantissa sgn d r k x : existsb (Z.eqb "e"%ch) sgn = false -> 0 <= d <= 9 -> digits r -> solid r -> r ++ repeat 0 k <> [] \/ d <> 0 ->
  exists fs y ex, strip_zeroes ((sgn ++ decimals [d] ++ fraction (r ++ repeat 0 k)) ++ "e"%ch :: fmt_exp x) = sgn ++ decimals [d] ++ fraction fs ++ ex /\
    digits fs /\ exponent_of y ex /\ shortened x y /\ forall z, (number [d] fs z == number [d] r z)%Q.
Proof.
  intros H1 H2 H3 H4 H5. pose proof (digits_zeros k) as DK.
  assert (DF: digits (r ++ repeat 0 k)) by (apply Forall_app; auto).
  destruct (@strip_e (sgn ++ decimals [d] ++ fraction (r ++ repeat 0 k)) x) as (p' & y & ex & E & EO & SH & P).
  { rewrite !existsb_app, H1, no_e_fraction by exact DF. rewrite no_char; [reflexivity|right; reflexivity|repeat constructor; lia]. }
  rewrite E. assert (C: exists fs, p' = sgn ++ decimals [d] ++ fraction fs /\ digits fs /\ forall z, (number [d] fs z == number [d] r z)%Q).
  { destruct P as [-> | P]; [exists (r ++ repeat 0 k); split; [reflexivity|]; split; [exact DF|intros z; apply number_zeros]|].
    destruct r as [|r0 r1] eqn:ER.
    - cbn [app] in P. destruct k as [|k].
      { cbn [repeat fraction] in P. rewrite app_nil_r in P. rewrite strip_solid in P; [discriminate| |discriminate]. destruct H5 as [H5|H5]; [cbn in H5; congruence|].
        right. exists [], d. split; [reflexivity|lia]. }
      cbn [repeat] in P. unfold fraction in P. change (0 :: repeat 0 k) with (repeat 0 (Datatypes.S k)) in P. rewrite decimals_rep, app_assoc in P.
      rewrite strip_spec in P by discriminate. change (in_range "1"%ch "."%ch "9"%ch) with false in P. rewrite andb_false_r in P.
      destruct ((1 <? Z.of_nat (Datatypes.S k)) && _); [|discriminate]. injection P as <-. exists [0]. split; [rewrite <- app_assoc; reflexivity|]. split; [repeat constructor; lia|].
      intros z. exact (@number_zeros [d] [] 1 z).
    - rewrite <- ER in *. assert (RN: r <> []) by congruence. assert (F: forall w, fraction (r ++ w) = "."%ch :: decimals r ++ decimals w) by (intros w; rewrite ER; cbn [app fraction]; rewrite <- decimals_app; reflexivity).
      rewrite F, decimals_rep in P. change ("."%ch :: decimals r ++ repeat "0"%ch k) with (["."%ch] ++ decimals r ++ repeat "0"%ch k) in P. rewrite !app_assoc in P.
      destruct k as [|k]; [cbn [repeat] in P; rewrite app_nil_r in P; rewrite strip_solid in P by assumption; discriminate|].
      rewrite <- (app_assoc _ (decimals r)) in P. rewrite strip_some in P by (auto; lia). injection P as <-. exists r. split; [|split; [exact H3|reflexivity]].
      rewrite <- (app_nil_r r) at 2. rewrite F. cbn [decimals map]. rewrite app_nil_r, <- !app_assoc. reflexivity. }
  destruct C as (fs & -> & C2 & C3). exists fs, y, ex. rewrite <- !app_assoc. auto.
Qed.
Lemma fmt_e_text d r dp prec : digits (d :: r) -> zlen r <= prec -> fmt_e (decimals (d :: r), dp) prec = (decimals [d] ++ fraction (r ++ repeat 0 (Z.to_nat (prec - zlen r)))) ++ "e"%ch :: fmt_exp (dp - 1).
Proof.
  intros H L. unfold fmt_e. cbn [decimals map tl]. fold (decimals r). rewrite <- app_assoc. cbn [app]. f_equal.
  rewrite firstn_all2 by (pose proof (zlen_dec r) as X; unfold zlen in X, L; pose proof (zlen_nn r); lia). rewrite zlen_dec.
  destruct (Z.ltb_spec 0 prec) as [P|P].
  - unfold zeros. rewrite <- decimals_rep, <- decimals_app. assert (N: r ++ repeat 0 (Z.to_nat (prec - zlen r)) <> []).
    { intros X. apply app_eq_nil in X as [-> X]. unfold zlen in X. cbn in X. destruct (Z.to_nat (prec - 0)) eqn:Y; [lia|discriminate X]. }
    destruct (r ++ repeat 0 (Z.to_nat (prec - zlen r))); [congruence|]. reflexivity.
  - pose proof (zlen_nn r). assert (r = []) as -> by (destruct r; [reflexivity|rewrite zlen_cons in *; pose proof (zlen_nn r); lia]).
    replace (Z.to_nat (prec - zlen [])) with O by (unfold zlen; cbn; lia). reflexivity.
Qed.
Lemma firstn_dec n ds : firstn n (decimals ds) = decimals (firstn n ds). Proof. apply firstn_map. Qed.
Lemma skipn_dec n ds : skipn n (decimals ds) = decimals (skipn n ds). Proof. apply skipn_map. Qed.

Lemma ratio m e : (let (num, den) := f64_ratio m e in inject_Z num / inject_Z den == amount m e)%Q.
Proof.
  unfold f64_ratio, amount. destruct (Z.leb_spec 0 e) as [H|H].
  - rewrite inject_Z_mult, <- two_Z by lia. change (inject_Z 1) with 1%Q. field.
  - rewrite <- two_Z, Qpower_opp by lia. pose proof (two_pos e). field. lra.
Qed.
Lemma sig_spec n m e : 0 < n -> representable m e -> m <> 0 ->
  exists us dp, sig_digits n m e = (decimals us, dp) /\ digits us /\ solid us /\ us <> [] /\ 0 < hd 0 us /\ zlen us <= n /\
    (Qabs (inject_Z (value 10 us) * 10 ^ (dp - zlen us) - amount m e) <= amount m e * ((1 # 2) * 10 ^ (1 - n)))%Q /\ (amount m e < 10 ^ dp)%Q.
Proof.
  intros Hn R M. unfold sig_digits. destruct (Z.eqb_spec m 0); [contradiction|]. pose proof (ratio m e) as Q. destruct (f64_ratio m e) as [num den] eqn:E.
  assert (B: 0 < num /\ 0 < den /\ den <= num * 10 ^ 400).
  { assert (L: -1074 <= e /\ 0 < m) by (unfold representable in R; lia). unfold f64_ratio in E. destruct (Z.leb_spec 0 e).
    - injection E as <- <-. pose proof (Z.pow_pos_nonneg 2 e ltac:(lia) ltac:(lia)). pose proof (Z.pow_pos_nonneg 10 400 ltac:(lia) ltac:(lia)). nia.
    - injection E as <- <-. pose proof (Z.pow_pos_nonneg 2 (- e) ltac:(lia) ltac:(lia)). pose proof (Z.pow_le_mono_r 2 (- e) 1074 ltac:(lia) ltac:(lia)).
      assert (2 ^ 1074 <= 10 ^ 400) by (vm_compute; discriminate). nia. }
  destruct B as (B1 & B2 & B3). destruct (digits_spec Hn B1 B2 B3) as (us & dp & A1 & A2 & A3 & A4 & A5 & A6 & A7 & A8). exists us, dp. repeat (split; [assumption|]). 
  rewrite <- Q. split; assumption.
Qed.
Definition sign_text (neg : bool) : str := if neg then ["-"%ch] else [].
Lemma with_sign_app neg s : with_sign neg s = sign_text neg ++ s. Proof. destruct neg; reflexivity. Qed.
Lemma sign_no c neg : c <> "-"%ch -> existsb (Z.eqb c) (sign_text neg) = false.
Proof. intros N. destruct neg; [|reflexivity]. cbn [sign_text existsb]. rewrite orb_false_r. apply Z.eqb_neq. exact N. Qed.

Definition written (neg : bool) (m e : Z) (s : str) : Prop :=
  exists ds fs x y ex, s = sign_text neg ++ decimals ds ++ fraction fs ++ ex /\ digits ds /\ ds <> [] /\ digits fs /\ exponent_of y ex /\ shortened x y /\
    (Qabs (number ds fs x - amount m e) <= amount m e * ((1 # 2) * 10 ^ (-15)))%Q /\
    (x = 0 \/ ((10 ^ x <= number ds fs x)%Q /\ (amount m e < 10 ^ (x + 1))%Q)).

Lemma written_e neg m e n d r dp k : 16 <= n -> digits (d :: r) -> 0 < d -> solid r ->
  (Qabs (inject_Z (value 10 (d :: r)) * 10 ^ (dp - zlen (d :: r)) - amount m e) <= amount m e * ((1 # 2) * 10 ^ (1 - n)))%Q -> (amount m e < 10 ^ dp)%Q -> (0 <= amount m e)%Q ->
  written neg m e (strip_zeroes (sign_text neg ++ (decimals [d] ++ fraction (r ++ repeat 0 k)) ++ "e"%ch :: fmt_exp (dp - 1))).
Proof.
  intros Hn HD Hd HS HA HU HP. inversion HD; subst. destruct (@mantissa (sign_text neg) d r k (dp - 1)) as (fs & y & ex & E & A2 & A3 & A4 & A5); auto; [apply sign_no; discriminate|lia|].
  rewrite (app_assoc (sign_text neg)), E. exists [d], fs, (dp - 1), y, ex. split; [reflexivity|]. split; [repeat constructor; lia|]. split; [discriminate|]. split; [exact A2|]. split; [exact A3|]. split; [exact A4|].
  assert (NE: (number [d] r (dp - 1) == inject_Z (value 10 (d :: r)) * 10 ^ (dp - zlen (d :: r)))%Q).
  { unfold number. cbn [app]. rewrite zlen_cons. replace (dp - 1 - zlen r) with (dp - (1 + zlen r)) by lia. reflexivity. }
  split.
  - rewrite A5, NE. eapply Qle_trans; [exact HA|]. assert (T: (10 ^ (1 - n) <= 10 ^ (-15))%Q) by (apply Qpower_le_compat_l; [lia|lra]).
    apply Qmult_le_compat_nonneg; [lra|]. pose proof (ten_pos (1 - n)). lra.
  - right. replace (dp - 1 + 1) with dp by lia. split; [|exact HU]. rewrite A5. unfold number. cbn [app].
    pose proof (@value_ge (d :: r) HD Hd) as V. rewrite zlen_cons in V. replace (1 + zlen r - 1) with (zlen r) in V by lia. apply (proj1 (injl _ _)) in V. rewrite <- ten_Z in V by apply zlen_nn.
    apply Qle_trans with (10 ^ zlen r * 10 ^ (dp - 1 - zlen r))%Q; [rewrite <- ten_add; replace (zlen r + (dp - 1 - zlen r)) with (dp - 1) by lia; lra|].
    apply Qmult_le_r; [apply ten_pos|exact V].
Qed.
Lemma amount_nonneg m e : representable m e -> (0 <= amount m e)%Q.
Proof. intros R. unfold amount. apply Qmult_le_0_compat; [|apply Qlt_le_weak, two_pos]. change 0%Q with (inject_Z 0). apply (proj1 (injl 0 m)). unfold representable in R. lia. Qed.
Lemma solid_tail d r : solid (d :: r) -> solid r.
Proof. intros [H|(u & x & E & Hx)]; [discriminate|]. destruct u as [|y u]; injection E as -> E; [left; exact E|]. right. exists u, x. auto. Qed.

Lemma text_16e neg m e : representable m e -> written neg m e (strip_zeroes (sprintf_16e (Fin neg m e))).
Proof.
  intros R. unfold sprintf_16e. rewrite with_sign_app. destruct (Z.eq_dec m 0) as [->|M].
  - assert (E: e = 0) by (unfold representable in R; lia). subst e. change (fmt_e (sig_digits 17 0 0) 16) with ((decimals [0] ++ fraction ([] ++ repeat 0 16)) ++ "e"%ch :: fmt_exp 0).
    destruct (@mantissa (sign_text neg) 0 [] 16 0) as (fs & y & ex & E & A2 & A3 & A4 & A5); try (constructor; fail); try lia; [apply sign_no; discriminate|left; reflexivity|left; discriminate|].
    rewrite (app_assoc (sign_text neg)), E. exists [0], fs, 0, y, ex. split; [reflexivity|]. split; [repeat constructor; lia|]. split; [discriminate|]. split; [exact A2|]. split; [exact A3|]. split; [exact A4|]. split; [|left; reflexivity].
    rewrite A5. vm_compute. discriminate.
  - destruct (@sig_spec 17 m e ltac:(lia) R M) as (us & dp & -> & D & S & N & HD & L & A & U). destruct us as [|d r]; [congruence|]. cbn [hd] in HD.
    assert (L': zlen r <= 16) by (rewrite zlen_cons in L; lia). rewrite fmt_e_text by assumption.
    apply written_e with (n := 17); auto; [lia|eapply solid_tail; exact S|apply amount_nonneg; exact R].
Qed.
Lemma has_app c (a b : str) : existsb (Z.eqb c) (a ++ c :: b) = true.
Proof. rewrite existsb_app. cbn [existsb]. rewrite Z.eqb_refl. cbn. apply orb_true_r. Qed.
Theorem text_written neg m e : representable m e -> written neg m e (format_f64 (Fin neg m e)).
Proof.
  intros R. unfold format_f64. destruct (_ || _) eqn:DOT; [|apply text_16e; exact R]. unfold sprintf_16g in *. rewrite with_sign_app in *. destruct (Z.eq_dec m 0) as [->|M].
  { assert (E: e = 0) by (unfold representable in R; lia). subst e. destruct neg; discriminate DOT. }
  destruct (@sig_spec 16 m e ltac:(lia) R M) as (us & dp & E & D & S & N & HD & L & A & U). rewrite E in *. unfold fmt_g in *. rewrite zlen_dec in *.
  assert (NN: 1 <= zlen us) by (destruct us; [congruence|rewrite zlen_cons; pose proof (zlen_nn us); lia]).
  set (eprec := if (zlen us <? 16) && (dp <=? zlen us) then zlen us else 16) in *. cbv iota in *. fold eprec in DOT |- *.
  assert (EP: eprec <= 16) by (unfold eprec; destruct (Z.ltb_spec (zlen us) 16); cbn [andb]; [destruct (dp <=? zlen us)|]; lia).
  destruct ((dp - 1 <? -4) || (eprec <=? dp - 1)) eqn:EF.
  - destruct us as [|d r]; [congruence|]. rewrite Z.min_r by lia. rewrite zlen_cons in *. replace (1 + zlen r - 1) with (zlen r) by lia.
    rewrite fmt_e_text by (auto; lia). apply written_e with (n := 16); auto; [lia|eapply solid_tail; exact S|rewrite zlen_cons; exact A|apply amount_nonneg; exact R].
  - apply orb_false_iff in EF as [_ EF]. apply Z.leb_gt in EF. unfold fmt_f in *. set (prec := Z.max 0 ((if dp <? 16 then zlen us else 16) - dp)) in *. rewrite zlen_dec in *.
    destruct (Z.ltb_spec 0 prec) as [P|P].
    + assert (PE: prec = zlen us - dp) by (unfold prec in *; destruct (Z.ltb_spec dp 16); lia). clearbody prec. clear DOT.
      assert (EFR: firstn (Z.to_nat prec) (zeros (- dp) ++ skipn (Z.to_nat dp) (decimals us) ++ zeros prec) = decimals (repeat 0 (Z.to_nat (- dp)) ++ skipn (Z.to_nat dp) us)).
      { unfold zeros. rewrite app_assoc, <- decimals_rep, skipn_dec, <- decimals_app.
        rewrite firstn_app, firstn_all2; [|unfold decimals; rewrite map_length, app_length, repeat_length, skipn_length; unfold zlen in *; lia].
        match goal with |- _ ++ firstn ?k _ = _ => replace k with O; [cbn [firstn]; apply app_nil_r|] end. unfold decimals; rewrite map_length, app_length, repeat_length, skipn_length; unfold zlen in *; lia. }
      rewrite EFR. set (fs := repeat 0 (Z.to_nat (- dp)) ++ skipn (Z.to_nat dp) us) in *.
      assert (FD: digits fs). { apply Forall_app. split; [apply digits_zeros|]. rewrite <- (firstn_skipn (Z.to_nat dp) us) in D. apply Forall_app in D as [_ D]. exact D. }
      assert (FS: solid fs /\ fs <> []).
      { destruct S as [->|(u & x & EU & Hx)]; [congruence|]. assert (LU: zlen us = zlen u + 1) by (rewrite EU, zlen_app; reflexivity).
        assert (X: fs = (repeat 0 (Z.to_nat (- dp)) ++ skipn (Z.to_nat dp) u) ++ [x]).
        { unfold fs. rewrite EU, skipn_app, <- app_assoc. do 2 f_equal. replace (Z.to_nat dp - List.length u)%nat with O by (unfold zlen in *; lia). reflexivity. }
        split; [right; exists (repeat 0 (Z.to_nat (- dp)) ++ skipn (Z.to_nat dp) u), x; auto|]. rewrite X. intros Y. symmetry in Y. now apply app_cons_not_nil in Y. }
      destruct FS as [FS FN].
      assert (FE: "."%ch :: decimals fs = fraction fs) by (destruct fs; [congruence|reflexivity]).
      assert (LF: zlen fs = zlen us - dp). { unfold fs. rewrite zlen_app, zlen_rep. unfold zlen in *. rewrite skipn_length. lia. }
      set (is := if 0 <? dp then firstn (Z.to_nat dp) us else [0]).
      assert (EI: (if 0 <? dp then firstn (Z.to_nat dp) (decimals us) ++ zeros (dp - zlen us) else ["0"%ch]) = decimals is).
      { unfold is. destruct (0 <? dp); [|reflexivity]. unfold zeros. replace (Z.to_nat (dp - zlen us)) with O by lia. cbn [repeat]. rewrite app_nil_r. apply firstn_dec. }
      rewrite EI, FE.
      assert (DI: digits is). { unfold is. destruct (0 <? dp); [|repeat constructor; lia]. rewrite <- (firstn_skipn (Z.to_nat dp) us) in D. apply Forall_app in D as [D _]. exact D. }
      assert (NI: is <> []). { unfold is. destruct (Z.ltb_spec 0 dp) as [X|X]; [|discriminate]. destruct us; [congruence|]. destruct (Z.to_nat dp) eqn:Y; [lia|discriminate]. }
      assert (ST: strip_zeroes (sign_text neg ++ decimals is ++ fraction fs) = sign_text neg ++ decimals is ++ fraction fs).
      { unfold strip_zeroes. rewrite <- FE. replace (sign_text neg ++ decimals is ++ "."%ch :: decimals fs) with ((sign_text neg ++ decimals is ++ ["."%ch]) ++ decimals fs) by (rewrite <- !app_assoc; reflexivity).
        rewrite strip_solid by assumption. rewrite split_e_none; [reflexivity|]. rewrite !existsb_app, sign_no by discriminate. rewrite !no_char; auto; right; reflexivity. }
      rewrite ST. exists is, fs, 0, 0, []. rewrite app_nil_r. split; [reflexivity|]. split; [exact DI|]. split; [exact NI|]. split; [exact FD|]. split; [constructor|]. split; [left; reflexivity|]. split; [|left; reflexivity].
      assert (NE: (number is fs 0 == inject_Z (value 10 us) * 10 ^ (dp - zlen us))%Q).
      { unfold number. rewrite LF. replace (0 - (zlen us - dp)) with (dp - zlen us) by lia. replace (value 10 (is ++ fs)) with (value 10 us); [reflexivity|].
        unfold is, fs. destruct (Z.ltb_spec 0 dp) as [X|X].
        - replace (Z.to_nat (- dp)) with O by lia. cbn [repeat app]. rewrite firstn_skipn. reflexivity.
        - replace (Z.to_nat dp) with O by lia. cbn [skipn]. rewrite app_assoc, value_app. rewrite (value_app [0]), value_zeros. unfold value at 2. cbn [fold_left]. lia. }
      rewrite NE. exact A.
    + exfalso. rewrite app_nil_r in DOT.
      assert (forall c, c < 48 \/ 57 < c -> c <> "-"%ch -> existsb (Z.eqb c) (sign_text neg ++ (if 0 <? dp then firstn (Z.to_nat dp) (decimals us) ++ zeros (dp - zlen us) else ["0"%ch])) = false) as NC.
      { intros c Hc1 Hc2. rewrite existsb_app, sign_no by exact Hc2. destruct (0 <? dp).
        - unfold zeros. rewrite firstn_dec, <- decimals_rep, <- decimals_app, no_char; auto. apply Forall_app. split; [|apply digits_zeros]. rewrite <- (firstn_skipn (Z.to_nat dp) us) in D. apply Forall_app in D as [D _]. exact D.
        - change ["0"%ch] with (decimals [0]). rewrite no_char; auto. repeat constructor; lia. }
      rewrite (NC "."%ch), (NC "e"%ch) in DOT; try discriminate; [right|left]; reflexivity.
Qed.
