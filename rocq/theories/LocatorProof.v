(** * LocatorProof: proofs of C06 *)
From Verif Require Import Base Ctx Locator Utf8Facts SpecReader ReaderProof.
From Coq Require Import ZifyBool.

Fixpoint nl_starts (i : Z) (rs : list Z) : list Z :=
  match rs with
  | [] => []
  | r :: rs' =>
    if r =? 10 then (i + 1) :: nl_starts (i + 1) rs'
    else nl_starts (i + zlen (encode_rune r)) rs'
  end.

Definition plain_text (rs : list Z) : Prop := scalars rs /\ ~ In 0 rs /\ ~ In 65533 rs.

Lemma plain_cons r rs : plain_text (r :: rs) -> valid_rune r = true /\ r <> 0 /\ r <> 65533 /\ plain_text rs.
Proof.
  intros (Hs & H0 & H1). inversion_clear Hs as [|? ? Hr Hs']. cbn [In] in *.
  split; [apply scalar_valid, Hr|]. split; [intros ->; tauto|]. split; [intros ->; tauto|].
  split; [exact Hs'|tauto].
Qed.

Lemma line_index_encode rs : forall fuel i,
  plain_text rs -> (List.length (encode rs) <= fuel)%nat ->
  line_index fuel i (encode rs) = inl (nl_starts i rs).
Proof.
  induction rs as [|r rs IH]; intros fuel i Hp Hf.
  { destruct fuel; reflexivity. }
  apply plain_cons in Hp. destruct Hp as (Hv & H0 & H1 & Hp).
  pose proof (valid_rune_range Hv) as [Hr _].
  rewrite encode_cons in *. rewrite app_length in Hf.
  pose proof (encode_rune_len r) as Hl. unfold zlen in Hl.
  destruct fuel as [|fuel]; [lia|].
  destruct (encode_head Hv) as (b & u & E & Ha & Hb).
  cbn [line_index nl_starts]. rewrite E at 1. cbn [app].
  destruct (Z.lt_ge_cases r 128) as [Hlt|Hge].
  - destruct (Ha Hlt) as [-> ->]. rewrite E in *. cbn [app List.length] in *.
    rewrite (proj2 (Z.eqb_neq _ _) H0), (proj2 (Z.ltb_lt _ _) Hlt).
    rewrite IH by (auto; lia). rewrite zlen_cons, zlen_nil. cbn [Z.add].
    destruct (r =? 10); reflexivity.
  - destruct (Hb Hge) as [Hb1 _].
    rewrite (proj2 (Z.eqb_neq b 0)) by lia. rewrite (proj2 (Z.ltb_ge b 128)) by lia.
    replace (b :: u ++ encode rs) with (encode_rune r ++ encode rs) by (rewrite E; reflexivity).
    rewrite (decode_encode _ Hv). rewrite (proj2 (Z.eqb_neq r rune_error)) by (unfold rune_error; lia).
    rewrite skipn_zlen, IH by (auto; lia).
    rewrite (proj2 (Z.eqb_neq r 10)) by lia. reflexivity.
Qed.

Lemma getLineIndex_encode rs : plain_text rs -> getLineIndex (encode rs) = inl (0 :: nl_starts 0 rs).
Proof. intros H. unfold getLineIndex. rewrite line_index_encode by (auto; lia). reflexivity. Qed.

(** starts within [a] are at most len a, those of [b] are beyond *)
Lemma search_starts_after b : forall i o, o < i + 1 -> filter (fun y => y <? o + 1) (nl_starts i b) = [].
Proof.
  induction b as [|r b IH]; intros i o H; [reflexivity|].
  cbn [nl_starts]. pose proof (encode_rune_len r). destruct (r =? 10).
  - cbn [filter]. rewrite (proj2 (Z.ltb_ge _ _)) by lia. apply IH. lia.
  - apply IH. lia.
Qed.

Lemma newlines_cons r s : newlines (r :: s) = (if r =? 10 then 1 else 0) + newlines s.
Proof. unfold newlines. cbn [filter]. rewrite Z.eqb_sym. destruct (r =? 10); [rewrite zlen_cons|]; lia. Qed.

Lemma search_starts a b : forall i,
  zlen (filter (fun y => y <? i + zlen (encode a) + 1) (nl_starts i (a ++ b))) = newlines a.
Proof.
  induction a as [|r a IH]; intros i.
  - cbn [app encode flat_map]. rewrite zlen_nil. rewrite search_starts_after by lia. reflexivity.
  - cbn [app nl_starts]. rewrite encode_cons, zlen_app, newlines_cons.
    pose proof (zlen_nonneg (encode a)) as Hn. pose proof (encode_rune_len r) as Hl.
    destruct (Z.eqb_spec r 10) as [->|Hne].
    + change (encode_rune 10) with [10] in *. rewrite zlen_cons, zlen_nil in *.
      cbn [filter]. rewrite (proj2 (Z.ltb_lt _ _)) by lia. rewrite zlen_cons.
      specialize (IH (i + 1)).
      replace (i + (1 + 0 + zlen (encode a)) + 1) with (i + 1 + zlen (encode a) + 1) by lia. lia.
    + specialize (IH (i + zlen (encode_rune r))).
      replace (i + (zlen (encode_rune r) + zlen (encode a)) + 1)
        with (i + zlen (encode_rune r) + zlen (encode a) + 1) by lia. lia.
Qed.

Lemma newlines_encode a : plain_text a -> newlines (encode a) = newlines a.
Proof.
  induction a as [|r a IH]; intros Hp; [reflexivity|].
  apply plain_cons in Hp. destruct Hp as (Hv & _ & _ & Hp).
  rewrite encode_cons, newlines_cons, <- IH by exact Hp.
  destruct (encode_head Hv) as (b & u & E & Ha & Hb). rewrite E. cbn [app]. rewrite newlines_cons.
  pose proof (valid_rune_range Hv) as [Hr _].
  destruct (Z.lt_ge_cases r 128) as [Hlt|Hge].
  - destruct (Ha Hlt) as [-> ->]. reflexivity.
  - destruct (Hb Hge) as [Hb1 Hu].
    rewrite (proj2 (Z.eqb_neq b 10)), (proj2 (Z.eqb_neq r 10)) by lia.
    assert (HN: forall v, Forall (fun x => 128 <= x <= 191) v -> newlines (v ++ encode a) = newlines (encode a)).
    { intros v Hv'. induction Hv' as [|x v Hx Hv' IHv]; [reflexivity|].
      cbn [app]. rewrite newlines_cons, IHv. rewrite (proj2 (Z.eqb_neq x 10)) by lia. lia. }
    rewrite (HN _ Hu). lia.
Qed.

Lemma plain_app_l a b : plain_text (a ++ b) -> plain_text a.
Proof.
  intros (H & H0 & H1). unfold plain_text, scalars in *. rewrite Forall_app in H. rewrite in_app_iff in *. tauto.
Qed.

Theorem line_correct a b :
  plain_text (a ++ b) ->
  lineForOffset (encode (a ++ b)) (zlen (encode a)) = inl (1 + newlines (encode a)).
Proof.
  intros Hp. unfold lineForOffset. rewrite (getLineIndex_encode Hp). unfold searchInts.
  cbn [filter]. pose proof (zlen_nonneg (encode a)).
  rewrite (proj2 (Z.ltb_lt _ _)) by lia. rewrite zlen_cons.
  rewrite (newlines_encode (plain_app_l Hp)), <- (search_starts a b 0). reflexivity.
Qed.

Lemma nth_start a b : forall i acc,
  nth (Z.to_nat (newlines a)) ((i - zlen (encode acc)) :: nl_starts i (a ++ b)) 0
  = i + zlen (encode a) - zlen (encode (last_line acc a)).
Proof.
  induction a as [|r a IH]; intros i acc.
  - cbn [last_line app]. change (encode []) with (@nil Z). change (newlines []) with 0. cbn [Z.to_nat nth].
    rewrite zlen_nil. lia.
  - rewrite newlines_cons. cbn [last_line app nl_starts]. rewrite encode_cons, zlen_app.
    assert (0 <= newlines a) by apply zlen_nonneg.
    destruct (Z.eqb_spec r 10) as [->|Hne].
    + replace (Z.to_nat (1 + newlines a)) with (S (Z.to_nat (newlines a))) by lia.
      transitivity (nth (Z.to_nat (newlines a)) ((i + 1) :: nl_starts (i + 1) (a ++ b)) 0); [reflexivity|].
      change (zlen (encode_rune 10)) with 1.
      specialize (IH (i + 1) []). cbn [encode flat_map] in IH. rewrite zlen_nil, Z.sub_0_r in IH.
      rewrite IH. lia.
    + rewrite Z.add_0_l. specialize (IH (i + zlen (encode_rune r)) (acc ++ [r])).
      rewrite encode_app, zlen_app in IH. unfold encode at 2 in IH. cbn [flat_map] in IH. rewrite app_nil_r in IH.
      replace (i + zlen (encode_rune r) - (zlen (encode acc) + zlen (encode_rune r)))
        with (i - zlen (encode acc)) in IH by lia.
      rewrite IH. lia.
Qed.

Lemma last_line_suffix a : forall acc, exists pre, acc ++ a = pre ++ last_line acc a.
Proof.
  induction a as [|r a IH]; intros acc; cbn [last_line].
  - exists []. now rewrite app_nil_r.
  - destruct (r =? 10).
    + destruct (IH []) as (pre & E). exists (acc ++ r :: pre). rewrite <- app_assoc. cbn [app] in *. rewrite <- E. reflexivity.
    + destruct (IH (acc ++ [r])) as (pre & E). exists pre. rewrite <- E, <- app_assoc. reflexivity.
Qed.

Lemma slice_app (x y z : str) : slice (x ++ y ++ z) (zlen x) (zlen x + zlen y) = y.
Proof.
  unfold slice. rewrite skipn_zlen.
  replace (Z.to_nat (zlen x + zlen y - zlen x)) with (List.length y) by (unfold zlen; lia).
  rewrite firstn_app, Nat.sub_diag, firstn_O, app_nil_r. apply firstn_all.
Qed.

Theorem column_correct a b :
  plain_text (a ++ b) ->
  posOnLine (encode (a ++ b)) (zlen (encode a)) = inl (1 + zlen (last_line [] a)).
Proof.
  intros Hp. pose proof (line_correct Hp) as HL. unfold lineForOffset in HL.
  unfold posOnLine. rewrite (getLineIndex_encode Hp) in *. injection HL as HL. rewrite HL.
  pose proof (nth_start a b 0 []) as HN. unfold encode at 1 in HN. cbn [flat_map] in HN.
  rewrite zlen_nil, Z.sub_0_r, Z.add_0_l in HN.
  rewrite (newlines_encode (plain_app_l Hp)).
  assert (H0: 0 <= newlines a) by apply zlen_nonneg.
  rewrite (proj2 (Z.ltb_ge _ _)) by lia.
  replace (1 + newlines a - 1) with (newlines a) by lia.
  rewrite HN.
  destruct (last_line_suffix a []) as (pre & E). cbn [app] in E.
  set (ll := last_line [] a) in *.
  assert (Hlen: zlen (encode a) = zlen (encode pre) + zlen (encode ll)) by (rewrite E, encode_app, zlen_app; reflexivity).
  assert (Hvl: valid_runes ll = true).
  { apply plain_app_l in Hp. destruct Hp as (Hs & _). rewrite E in Hs. unfold scalars in Hs.
    apply Forall_app in Hs. apply scalars_valid, Hs. }
  pose proof (zlen_nonneg (encode ll)). pose proof (zlen_nonneg (encode b)).
  destruct (Z.eqb_spec (zlen (encode a)) (zlen (encode a) - zlen (encode ll))) as [Heq|Hneq].
  - assert (Hz: zlen (encode ll) = 0) by lia.
    assert (Hnil: ll = []).
    { rewrite <- (runes_encode Hvl). destruct (encode ll) as [|x t]; [reflexivity|].
      rewrite zlen_cons in Hz. pose proof (zlen_nonneg t). lia. }
    rewrite Hnil. reflexivity.
  - rewrite encode_app, zlen_app. rewrite (proj2 (Z.ltb_ge (zlen (encode a) + zlen (encode b)) _)) by lia.
    rewrite (proj2 (Z.ltb_ge (zlen (encode a)) _)) by lia.
    assert (HS: slice (encode a ++ encode b) (zlen (encode a) - zlen (encode ll)) (zlen (encode a)) = encode ll).
    { replace (zlen (encode a) - zlen (encode ll)) with (zlen (encode pre)) by lia.
      rewrite Hlen. rewrite E at 1. rewrite encode_app, <- app_assoc. apply slice_app. }
    rewrite HS, (runes_encode Hvl). f_equal. lia.
Qed.
