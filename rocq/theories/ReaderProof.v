(** * ReaderProof: proofs of C01 *)
From Verif Require Import Base Ctx Utf8Facts SpecReader.
From Coq Require Import ZifyBool.

Lemma scalar_valid r : scalar r <-> valid_rune r = true.
Proof. unfold scalar, valid_rune. lia. Qed.

Lemma scalars_valid rs : scalars rs <-> valid_runes rs = true.
Proof.
  unfold scalars, valid_runes. rewrite Forall_forall, forallb_forall.
  split; intros H x Hx; apply scalar_valid, H, Hx.
Qed.

Lemma decode_of r t :
  valid_rune r = true -> exists b s, encode_rune r ++ t = b :: s /\
  (if b <? 128 then (b, 1) else decode_rune (b :: s)) = (r, zlen (encode_rune r)).
Proof.
  intros Hr. destruct (encode_head Hr) as (b & u & Hu & Ha & Hb).
  exists b, (u ++ t). split; [rewrite Hu; reflexivity|].
  replace (b :: u ++ t) with (encode_rune r ++ t) by (rewrite Hu; reflexivity).
  destruct (Z.ltb_spec b 128).
  - destruct (Z.lt_ge_cases r 128) as [Hlt|Hge].
    + destruct (Ha Hlt) as [-> ->]. rewrite Hu. reflexivity.
    + destruct (Hb Hge). lia.
  - apply decode_encode, Hr.
Qed.

Lemma rune_at_ok c p r t :
  0 <= p -> skipn (Z.to_nat p) (c_text c) = encode_rune r ++ t -> p < zlen (c_text c) ->
  valid_rune r = true -> r <> rune_error ->
  rune_at p c = inl (r, zlen (encode_rune r)).
Proof.
  intros H0 Hs Hlt Hr Hne. unfold rune_at, len.
  rewrite (proj2 (Z.leb_gt _ _) Hlt), (proj2 (Z.ltb_ge _ _) H0).
  rewrite Hs. destruct (decode_of t Hr) as (b & s & E & D). rewrite E.
  destruct (b <? 128).
  - injection D as -> <-. reflexivity.
  - rewrite D. destruct (Z.eqb_spec r rune_error); [contradiction|reflexivity].
Qed.

Lemma rune_at_bad c p :
  Forall (fun b => 0 <= b <= 255) (c_text c) ->
  0 <= p < zlen (c_text c) ->
  (forall r, holds_rune (c_text c) p r -> r = rune_error) ->
  rune_at p c = inr (ParseErr (c_pos c)).
Proof.
  intros HF Hp Hno. unfold rune_at, len.
  rewrite (proj2 (Z.leb_gt _ _)) by lia. rewrite (proj2 (Z.ltb_ge _ _)) by lia.
  destruct (skipn (Z.to_nat p) (c_text c)) as [|b s] eqn:E.
  { exfalso. pose proof (skipn_length (Z.to_nat p) (c_text c)) as HL. rewrite E in HL.
    unfold zlen in Hp. cbn in HL. lia. }
  assert (HFs: Forall (fun b => 0 <= b <= 255) (b :: s)).
  { rewrite <- E. rewrite <- (firstn_skipn (Z.to_nat p)) in HF. apply Forall_app in HF. apply HF. }
  destruct (Z.ltb_spec b 128).
  - inversion_clear HFs as [|? ? Hb HFs'].
    assert (Hh: holds_rune (c_text c) p b).
    { split; [lia|]. split; [left; lia|]. exists s. rewrite encode_ascii by lia.
      split; [exact E|lia]. }
    apply Hno in Hh. unfold rune_error in Hh. lia.
  - destruct (decode_rune (b :: s)) as [r w] eqn:D.
    destruct (Z.eqb_spec r rune_error) as [|Hne]; [reflexivity|].
    destruct (@decode_sound (b :: s) r w HFs D ltac:(discriminate) (or_introl Hne)) as (Hv & Hw & Hs).
    exfalso. apply Hne, Hno. split; [lia|]. split; [apply scalar_valid, Hv|].
    exists (skipn (Z.to_nat w) (b :: s)). rewrite E. split; [exact Hs|lia].
Qed.

Lemma next_ok c r t :
  0 <= c_pos c -> skipn (Z.to_nat (c_pos c)) (c_text c) = encode_rune r ++ t ->
  c_pos c < zlen (c_text c) -> valid_rune r = true -> r <> rune_error ->
  next c = Ok (r, c_pos c) (with_pos (c_pos c + zlen (encode_rune r)) c).
Proof. intros. unfold next. erewrite rune_at_ok by eassumption. reflexivity. Qed.

Lemma skipn_skipn_z (A : Type) (l : list A) a b :
  0 <= a -> 0 <= b -> skipn (Z.to_nat (a + b)) l = skipn (Z.to_nat b) (skipn (Z.to_nat a) l).
Proof.
  intros Ha Hb. rewrite Z2Nat.inj_add by lia.
  generalize (Z.to_nat b) as m. generalize (Z.to_nat a) as n. clear. intros n m. revert l.
  induction n as [|n IH]; intros l; [reflexivity|].
  destruct l as [|x l]; cbn [plus skipn]; [now rewrite skipn_nil|]. apply IH.
Qed.

Lemma read_runes_gen rs t : forall c,
  valid_runes rs = true -> ~ In rune_error rs ->
  0 <= c_pos c -> skipn (Z.to_nat (c_pos c)) (c_text c) = encode rs ++ t ->
  read_runes (List.length rs) c
  = Ok (with_offsets (c_pos c) rs) (with_pos (c_pos c + zlen (encode rs)) c).
Proof.
  induction rs as [|r rs IH]; intros c Hv Hne H0 Hs.
  { cbn [List.length read_runes with_offsets encode flat_map]. unfold ret. rewrite zlen_nil, Z.add_0_r.
    destruct c; reflexivity. }
  cbn [valid_runes forallb] in Hv. apply andb_true_iff in Hv as [Hr Hv].
  rewrite encode_cons, <- app_assoc in Hs.
  cbn [List.length read_runes with_offsets]. unfold bind at 1.
  assert (Hpos: c_pos c < zlen (c_text c)).
  { destruct (Z.lt_ge_cases (c_pos c) (zlen (c_text c))) as [H|H]; [exact H|].
    rewrite skipn_all2 in Hs by (unfold zlen in H; lia).
    symmetry in Hs. apply app_eq_nil in Hs. destruct Hs as [Hs _]. now apply encode_rune_nonempty in Hs. }
  pose proof (encode_rune_len r) as Hl.
  rewrite (@next_ok c r (encode rs ++ t)); auto.
  2:{ intros ->. apply Hne. now left. }
  unfold bind at 1.
  rewrite IH.
  - unfold ret. rewrite encode_cons, zlen_app. f_equal. unfold with_pos. cbn [c_pos c_text c_opts c_nls c_tok c_bol c_tsp c_val c_radix c_names c_defs]. f_equal. lia.
  - exact Hv.
  - intros H. apply Hne. now right.
  - cbn. lia.
  - cbn. rewrite skipn_skipn_z by lia. rewrite Hs. apply skipn_zlen.
Qed.

Lemma next_at_end c : zlen (c_text c) <= c_pos c -> next c = Ok (0, c_pos c) (with_pos (c_pos c + 0) c).
Proof. intros H. unfold next, rune_at, len. rewrite (proj2 (Z.leb_le _ _) H). reflexivity. Qed.

Theorem reads_all c rs :
  scalars rs -> ~ In 65533 rs -> c_text c = encode rs -> c_pos c = 0 ->
  exists c', read_runes (List.length rs) c = Ok (with_offsets 0 rs) c'
             /\ c_text c' = c_text c
             /\ c_pos c' = zlen (c_text c)
             /\ exists c'', next c' = Ok (0, zlen (c_text c)) c'' /\ c_pos c'' = c_pos c'.
Proof.
  intros Hv Hne Ht Hp.
  exists (with_pos (c_pos c + zlen (encode rs)) c).
  split.
  { rewrite (@read_runes_gen rs [] c); [rewrite Hp; reflexivity|apply scalars_valid, Hv|exact Hne|lia|].
    rewrite Hp, Ht, app_nil_r. reflexivity. }
  split; [reflexivity|]. rewrite Hp, <- Ht. cbn. split; [reflexivity|].
  eexists. split; [apply next_at_end; cbn; lia|]. cbn. lia.
Qed.

Theorem peek_is_next c :
  match next c with
  | Ok (r, p) c' => p = c_pos c /\ c' = with_pos (c_pos c') c /\ peek c = Ok (r, c_pos c' - c_pos c) c
  | Err e c' => c' = c /\ peek c = Err e c
  | Fuel => False
  end.
Proof.
  unfold next, peek. destruct (rune_at (c_pos c) c) as [[r w]|e].
  - cbn. split; [reflexivity|]. split; [reflexivity|]. do 2 f_equal. lia.
  - auto.
Qed.

Theorem next_fails_iff c :
  Forall (fun b => 0 <= b <= 255) (c_text c) -> 0 <= c_pos c < zlen (c_text c) ->
  ((exists r, holds_rune (c_text c) (c_pos c) r /\ r <> 65533) ->
     exists r, holds_rune (c_text c) (c_pos c) r /\
               next c = Ok (r, c_pos c) (with_pos (c_pos c + zlen (encode_rune r)) c))
  /\ (~ (exists r, holds_rune (c_text c) (c_pos c) r /\ r <> 65533) ->
      next c = Err (ParseErr (c_pos c)) c).
Proof.
  intros HF Hp. split.
  - intros (r & Hh & Hne). exists r. split; [exact Hh|].
    destruct Hh as (H0 & Hs & t & Ht & Hlt).
    apply next_ok with t; auto. apply scalar_valid, Hs.
  - intros Hno. unfold next. rewrite rune_at_bad; auto.
    intros r Hr. destruct (Z.eq_dec r rune_error); [assumption|].
    exfalso. apply Hno. exists r. split; assumption.
Qed.
