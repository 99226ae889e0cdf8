(** * Utf8Facts: encoding and decoding are inverse *)
From Verif Require Import Base.
From Coq Require Import ZifyBool.

Definition valid_runes (rs : list Z) : bool := forallb valid_rune rs.

(** decide a chain of boolean comparisons by lia *)
Ltac bdec :=
  repeat match goal with
  | |- context [?a <? ?b] =>
    first [ rewrite (proj2 (Z.ltb_lt a b)) by lia | rewrite (proj2 (Z.ltb_ge a b)) by lia ]
  | |- context [?a <=? ?b] =>
    first [ rewrite (proj2 (Z.leb_le a b)) by lia | rewrite (proj2 (Z.leb_gt a b)) by lia ]
  | |- context [?a =? ?b] =>
    first [ rewrite (proj2 (Z.eqb_eq a b)) by lia | rewrite (proj2 (Z.eqb_neq a b)) by lia ]
  end.

Lemma valid_rune_range r : valid_rune r = true -> 0 <= r <= 1114111 /\ ~ (55296 <= r <= 57343).
Proof. unfold valid_rune. lia. Qed.

Lemma decode_encode_raw r s :
  valid_rune r = true ->
  decode_rune (encode_rune_raw r ++ s) = (r, zlen (encode_rune_raw r)).
Proof.
  intros Hv. apply valid_rune_range in Hv. destruct Hv as [Hr Hs].
  unfold encode_rune_raw.
  pose proof (Z.div_mod r 64 ltac:(lia)) as E1.
  pose proof (Z.mod_pos_bound r 64 ltac:(lia)) as B1.
  assert (H12: r / 4096 = r / 64 / 64) by (rewrite Z.div_div by lia; reflexivity).
  assert (H18: r / 262144 = r / 64 / 64 / 64) by (rewrite !Z.div_div by lia; reflexivity).
  pose proof (Z.div_mod (r / 64) 64 ltac:(lia)) as E2.
  pose proof (Z.mod_pos_bound (r / 64) 64 ltac:(lia)) as B2.
  pose proof (Z.div_mod (r / 64 / 64) 64 ltac:(lia)) as E3.
  pose proof (Z.mod_pos_bound (r / 64 / 64) 64 ltac:(lia)) as B3.
  rewrite H18, H12.
  remember (r mod 64) as m1 eqn:Hm1; clear Hm1. remember ((r / 64) mod 64) as m2 eqn:Hm2; clear Hm2.
  remember ((r / 64 / 64) mod 64) as m3 eqn:Hm3; clear Hm3. remember (r / 64 / 64 / 64) as q3 eqn:Hq3; clear Hq3.
  remember (r / 64 / 64) as q2 eqn:Hq2; clear Hq2. remember (r / 64) as q1 eqn:Hq1; clear Hq1. clear H12 H18.
  destruct (Z.ltb_spec r 128).
  { cbn [app decode_rune]. bdec. reflexivity. }
  destruct (Z.ltb_spec r 2048).
  { cbn [app decode_rune]. unfold is_cont. bdec. cbn [orb andb negb]. bdec. cbn [andb negb]. 
    f_equal. lia. }
  destruct (Z.ltb_spec r 65536).
  { cbn [app decode_rune]. unfold is_cont.
    destruct (Z.eqb_spec (224 + q2) 224); [|destruct (Z.eqb_spec (224 + q2) 237)];
      bdec; cbn [orb andb negb]; bdec; cbn [andb negb]; f_equal; lia. }
  { cbn [app decode_rune]. unfold is_cont.
    destruct (Z.eqb_spec (240 + q3) 240); [|destruct (Z.eqb_spec (240 + q3) 244)];
      bdec; cbn [orb andb negb]; bdec; cbn [andb negb]; f_equal; lia. }
Qed.

Lemma encode_valid r : valid_rune r = true -> encode_rune r = encode_rune_raw r.
Proof. unfold encode_rune. now intros ->. Qed.

Lemma decode_encode r s :
  valid_rune r = true -> decode_rune (encode_rune r ++ s) = (r, zlen (encode_rune r)).
Proof. intros H. rewrite (encode_valid H). now apply decode_encode_raw. Qed.

Lemma encode_rune_nonempty r : encode_rune r <> [].
Proof.
  unfold encode_rune, encode_rune_raw.
  destruct (valid_rune r); repeat destruct (_ <? _); discriminate.
Qed.

Lemma encode_rune_len r : 1 <= zlen (encode_rune r) <= 4.
Proof.
  unfold encode_rune, encode_rune_raw, zlen.
  destruct (valid_rune r); repeat destruct (_ <? _); cbn [List.length]; lia.
Qed.

Lemma encode_ascii r : 0 <= r < 128 -> encode_rune r = [r].
Proof.
  intros H. unfold encode_rune, valid_rune, encode_rune_raw. bdec. cbn [andb orb]. bdec. reflexivity.
Qed.

(** the first byte tells ASCII from the rest *)
Lemma encode_head r :
  valid_rune r = true -> exists b t, encode_rune r = b :: t /\ 
    (r < 128 -> b = r /\ t = []) /\ (128 <= r -> 194 <= b <= 244 /\ Forall (fun x => 128 <= x <= 191) t).
Proof.
  intros Hv. rewrite (encode_valid Hv). apply valid_rune_range in Hv. destruct Hv as [Hr Hs].
  unfold encode_rune_raw.
  pose proof (Z.mod_pos_bound r 64 ltac:(lia)) as B1.
  pose proof (Z.mod_pos_bound (r / 64) 64 ltac:(lia)) as B2.
  pose proof (Z.mod_pos_bound (r / 4096) 64 ltac:(lia)) as B3.
  destruct (Z.ltb_spec r 128); [|destruct (Z.ltb_spec r 2048); [|destruct (Z.ltb_spec r 65536)]];
    eexists; eexists; (split; [reflexivity|]).
  - split; [auto|lia].
  - split; [lia|]. intros _. split; [|repeat constructor; lia].
    assert (2 <= r / 64 < 32); [|lia].
    split; [apply Z.div_le_lower_bound|apply Z.div_lt_upper_bound]; lia.
  - split; [lia|]. intros _. split; [|repeat constructor; lia].
    assert (0 <= r / 4096 < 16); [|lia].
    split; [apply Z.div_le_lower_bound|apply Z.div_lt_upper_bound]; lia.
  - split; [lia|]. intros _. split; [|repeat constructor; lia].
    assert (0 <= r / 262144 < 5); [|lia].
    split; [apply Z.div_le_lower_bound|apply Z.div_lt_upper_bound]; lia.
Qed.

Lemma skipn_zlen (A : Type) (l l' : list A) : skipn (Z.to_nat (zlen l)) (l ++ l') = l'.
Proof. unfold zlen. rewrite Nat2Z.id, skipn_app, skipn_all, Nat.sub_diag. reflexivity. Qed.

Lemma zlen_app (A : Type) (a b : list A) : zlen (a ++ b) = zlen a + zlen b.
Proof. unfold zlen. rewrite app_length. lia. Qed.
Lemma zlen_cons (A : Type) (a : A) b : zlen (a :: b) = 1 + zlen b.
Proof. unfold zlen. cbn [List.length]. lia. Qed.
Lemma zlen_nil (A : Type) : zlen (@nil A) = 0.
Proof. reflexivity. Qed.
Lemma zlen_nonneg (A : Type) (l : list A) : 0 <= zlen l.
Proof. unfold zlen. lia. Qed.
Arguments zlen_nonneg {A} l.

Lemma runes_fuel_encode rs n :
  valid_runes rs = true -> (List.length (encode rs) <= n)%nat -> runes_fuel n (encode rs) = rs.
Proof.
  revert n; induction rs as [|r rs IH]; intros n Hv Hn.
  { destruct n; reflexivity. }
  cbn [valid_runes forallb] in Hv. apply andb_true_iff in Hv as [Hr Hv].
  cbn [encode flat_map] in *. rewrite app_length in Hn.
  pose proof (encode_rune_len r) as Hl. unfold zlen in Hl.
  destruct n as [|n]; [lia|].
  cbn [runes_fuel].
  destruct (encode_rune r ++ flat_map encode_rune rs) as [|b t] eqn:E.
  { apply app_eq_nil in E. destruct E as [E _]. now apply encode_rune_nonempty in E. }
  rewrite <- E. rewrite (decode_encode _ Hr). rewrite skipn_zlen.
  f_equal. apply IH; [exact Hv|]. unfold encode. lia.
Qed.

(** Decoding the text of valid runes gives these runes back. *)
Lemma runes_encode rs : valid_runes rs = true -> runes (encode rs) = rs.
Proof. intros H. apply runes_fuel_encode; [exact H | apply le_n]. Qed.

Lemma encode_app a b : encode (a ++ b) = encode a ++ encode b.
Proof. apply flat_map_app. Qed.
Lemma encode_cons r rs : encode (r :: rs) = encode_rune r ++ encode rs.
Proof. reflexivity. Qed.

Definition ascii (s : str) : bool := forallb (fun b => (0 <=? b) && (b <? 128)) s.
Lemma ascii_encode s : ascii s = true -> encode s = s.
Proof.
  unfold ascii. induction s as [|b s IH]; [reflexivity|]. cbn [forallb]. intros H.
  apply andb_true_iff in H as [Hb Hs]. rewrite encode_cons, IH by exact Hs.
  rewrite encode_ascii by lia. reflexivity.
Qed.
Lemma ascii_valid s : ascii s = true -> valid_runes s = true.
Proof.
  unfold ascii, valid_runes. induction s as [|b s IH]; [reflexivity|]. cbn [forallb]. intros H.
  apply andb_true_iff in H as [Hb Hs]. rewrite IH by exact Hs. unfold valid_rune. lia.
Qed.

Lemma encode_inj a b : valid_runes a = true -> valid_runes b = true -> encode a = encode b -> a = b.
Proof. intros Ha Hb E. rewrite <- (runes_encode Ha), <- (runes_encode Hb), E. reflexivity. Qed.

(** What the decoder accepts is what the encoder writes: decoding a byte
    string to something else than the error rune consumes exactly the encoding
    of a valid rune. *)
Lemma decode_sound s r w :
  Forall (fun b => 0 <= b <= 255) s ->
  decode_rune s = (r, w) -> s <> [] -> (r <> rune_error \/ w <> 1) ->
  valid_rune r = true /\ w = zlen (encode_rune r) /\ s = encode_rune r ++ skipn (Z.to_nat w) s.
Proof.
  intros HF HD Hne Hgood.
  assert (HH: valid_rune r = true /\ exists t, s = encode_rune_raw r ++ t /\ w = zlen (encode_rune_raw r)).
  { unfold decode_rune in HD.
    destruct s as [|b0 s1]; [congruence|].
    inversion_clear HF as [|? ? Hb0 HF1].
    destruct (Z.ltb_spec b0 128).
    { injection HD as <- <-. split; [unfold valid_rune; lia|]. exists s1. unfold encode_rune_raw. bdec.
      split; reflexivity. }
    assert (Hbad: forall A : Prop, (rune_error, 1) = (r, w) -> A) by (intros A HE; injection HE as <- <-; lia).
    destruct (Z.ltb_spec b0 194); [cbn [orb] in HD; apply (Hbad _ HD)|].
    destruct (Z.ltb_spec 244 b0); cbn [orb] in HD; [apply (Hbad _ HD)|].
    destruct s1 as [|b1 s2]; [apply (Hbad _ HD)|].
    inversion_clear HF1 as [|? ? Hb1 HF2].
    remember (if b0 =? 224 then 160 else if b0 =? 240 then 144 else 128) as lo eqn:Elo.
    remember (if b0 =? 237 then 159 else if b0 =? 244 then 143 else 191) as hi eqn:Ehi.
    unfold is_cont in HD.
    destruct (Z.leb_spec lo b1); cbn [andb negb] in HD; [|apply (Hbad _ HD)].
    destruct (Z.leb_spec b1 hi); cbn [negb] in HD; [|apply (Hbad _ HD)].
    assert (Hlo: 128 <= lo) by (subst lo; destruct (Z.eqb_spec b0 224); [|destruct (Z.eqb_spec b0 240)]; lia).
    assert (Hhi: hi <= 191) by (subst hi; destruct (Z.eqb_spec b0 237); [|destruct (Z.eqb_spec b0 244)]; lia).
    destruct (Z.ltb_spec b0 224).
    { injection HD as <- <-. split; [unfold valid_rune; lia|].
      exists s2. unfold encode_rune_raw.
      bdec.
      assert (Hq: ((b0 - 192) * 64 + (b1 - 128)) / 64 = b0 - 192).
      { symmetry. apply Z.div_unique with (b1 - 128); lia. }
      assert (Hm: ((b0 - 192) * 64 + (b1 - 128)) mod 64 = b1 - 128).
      { symmetry. apply Z.mod_unique with (b0 - 192); lia. }
      rewrite Hq, Hm. split; [|reflexivity]. cbn [app]. repeat f_equal; lia. }
    destruct s2 as [|b2 s3]; [apply (Hbad _ HD)|].
    inversion_clear HF2 as [|? ? Hb2 HF3].
    destruct (Z.leb_spec 128 b2); cbn [andb negb] in HD; [|apply (Hbad _ HD)].
    destruct (Z.leb_spec b2 191); cbn [negb] in HD; [|apply (Hbad _ HD)].
    destruct (Z.ltb_spec b0 240).
    { injection HD as <- <-.
      assert (Hlo': b0 = 224 -> 160 <= b1) by (intros E0; rewrite E0 in Elo; cbn in Elo; lia).
      assert (Hhi': b0 = 237 -> b1 <= 159) by (intros E0; rewrite E0 in Ehi; cbn in Ehi; lia).
      clear Elo Ehi.
      split; [unfold valid_rune; lia|].
      exists s3. unfold encode_rune_raw. bdec.
      remember ((b0 - 224) * 4096 + (b1 - 128) * 64 + (b2 - 128)) as x eqn:Hx.
      assert (Hq: x / 4096 = b0 - 224)
        by (symmetry; apply Z.div_unique with ((b1 - 128) * 64 + (b2 - 128)); lia).
      assert (Hq1: x / 64 = (b0 - 224) * 64 + (b1 - 128))
        by (symmetry; apply Z.div_unique with (b2 - 128); lia).
      assert (Hm1: (x / 64) mod 64 = b1 - 128)
        by (rewrite Hq1; symmetry; apply Z.mod_unique with (b0 - 224); lia).
      assert (Hm: x mod 64 = b2 - 128)
        by (symmetry; apply Z.mod_unique with ((b0 - 224) * 64 + (b1 - 128)); lia).
      rewrite Hq, Hm1, Hm. split; [|reflexivity]. cbn [app]. repeat f_equal; lia. }
    destruct s3 as [|b3 s4]; [apply (Hbad _ HD)|].
    inversion_clear HF3 as [|? ? Hb3 HF4].
    destruct (Z.leb_spec 128 b3); cbn [andb negb] in HD; [|apply (Hbad _ HD)].
    destruct (Z.leb_spec b3 191); cbn [negb] in HD; [|apply (Hbad _ HD)].
    injection HD as <- <-.
    assert (Hlo': b0 = 240 -> 144 <= b1) by (intros E0; rewrite E0 in Elo; cbn in Elo; lia).
    assert (Hhi': b0 = 244 -> b1 <= 143) by (intros E0; rewrite E0 in Ehi; cbn in Ehi; lia).
    clear Elo Ehi.
    split; [unfold valid_rune; lia|].
    exists s4. unfold encode_rune_raw. bdec.
    remember ((b0 - 240) * 262144 + (b1 - 128) * 4096 + (b2 - 128) * 64 + (b3 - 128)) as x eqn:Hx.
    assert (Hq: x / 262144 = b0 - 240)
      by (symmetry; apply Z.div_unique with ((b1 - 128) * 4096 + (b2 - 128) * 64 + (b3 - 128)); lia).
    assert (Hq2: x / 4096 = (b0 - 240) * 64 + (b1 - 128))
      by (symmetry; apply Z.div_unique with ((b2 - 128) * 64 + (b3 - 128)); lia).
    assert (Hq1: x / 64 = (b0 - 240) * 4096 + (b1 - 128) * 64 + (b2 - 128))
      by (symmetry; apply Z.div_unique with (b3 - 128); lia).
    assert (Hm2: (x / 4096) mod 64 = b1 - 128)
      by (rewrite Hq2; symmetry; apply Z.mod_unique with (b0 - 240); lia).
    assert (Hm1: (x / 64) mod 64 = b2 - 128)
      by (rewrite Hq1; symmetry; apply Z.mod_unique with ((b0 - 240) * 64 + (b1 - 128)); lia).
    assert (Hm: x mod 64 = b3 - 128)
      by (symmetry; apply Z.mod_unique with ((b0 - 240) * 4096 + (b1 - 128) * 64 + (b2 - 128)); lia).
    rewrite Hq, Hm2, Hm1, Hm. split; [|reflexivity]. cbn [app]. repeat f_equal; lia. }
  destruct HH as (Hv & t & Hs & Hw). rewrite <- (encode_valid Hv) in Hs, Hw.
  split; [exact Hv|]. split; [exact Hw|].
  rewrite Hw. rewrite Hs at 2. rewrite skipn_zlen. exact Hs.
Qed.

Lemma decode_width s r w : decode_rune s = (r, w) -> s <> [] -> 1 <= w <= zlen s /\ w <= 4.
Proof.
  unfold decode_rune. intros HD Hne.
  destruct s as [|b0 s1]; [congruence|]. rewrite zlen_cons. pose proof (zlen_nonneg s1).
  destruct (b0 <? 128); [injection HD as <- <-; lia|].
  destruct ((b0 <? 194) || (244 <? b0)); [injection HD as <- <-; lia|].
  destruct s1 as [|b1 s2]; [injection HD as <- <-; lia|].
  rewrite zlen_cons in *. pose proof (zlen_nonneg s2).
  destruct (negb _); [injection HD as <- <-; lia|].
  destruct (b0 <? 224); [injection HD as <- <-; lia|].
  destruct s2 as [|b2 s3]; [injection HD as <- <-; lia|].
  rewrite zlen_cons in *. pose proof (zlen_nonneg s3).
  destruct (negb _); [injection HD as <- <-; lia|].
  destruct (b0 <? 240); [injection HD as <- <-; lia|].
  destruct s3 as [|b3 s4]; [injection HD as <- <-; lia|].
  rewrite zlen_cons in *. pose proof (zlen_nonneg s4).
  destruct (negb _); injection HD as <- <-; lia.
Qed.
