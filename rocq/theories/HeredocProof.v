(** * HeredocProof: the lexer on heredocs *)
From Verif Require Import Base Float Tokens Ast Ctx Lexer Parser Utf8Facts SpecReader ReaderProof LexBase SpecLex GapProof LexTokens LexPunct Evals LexStrings EppProof SpecHeredoc.
From Coq Require Import Lia ZifyBool.

Lemma head_runes s t : s <> [] -> Forall rune_ok s -> head_rune (encode s ++ t) = Some (hd 0 s, hd_width s).
Proof.
  intros N H. destruct H as [|r s (H1 & H2 & H3) _]; [congruence|]. rewrite encode_cons, <- app_assoc. apply head_encode; auto.
Qed.
Lemma at_drop c a s : at_ c (encode a ++ s) -> at_ (fwd (zlen (encode a)) c) s.
Proof. apply at_fwd. Qed.
Lemma space_ascii w : Forall space w -> encode w = w.
Proof. intros H. apply encode_asciis. revert H. apply Forall_impl. unfold space. lia. Qed.
Lemma space_b r : space r <-> (r =? " "%ch) || (r =? 13) || (r =? 9) = true.
Proof. unfold space. change " "%ch with 32. lia. Qed.
Lemma space_ok w : Forall space w -> Forall rune_ok w.
Proof. apply Forall_impl. intros r H. apply rune_ok_ascii. unfold space in H. lia. Qed.

Lemma literal_loop w : forall n c s r wd, at_ c (w ++ s) -> Forall space w -> head_rune s = Some (r, wd) -> ~ space r -> (List.length w < n)%nat ->
  loop n (fun _ : unit => '(c, start) <- next ;;
    if (c =? " "%ch) || (c =? 13) || (c =? 9) then ret (inl tt) else ret (inr (c, start))) tt c
  = Ok (r, c_pos c + zlen w) (fwd (zlen w + wd) c).
Proof.
  induction w as [|b w IH]; intros n c s r wd H HF Hh Hr Hn; (destruct n as [|n]; [cbn in *; lia|]); cbn [loop]; unfold bind at 1.
  - cbn [app] in H. rewrite (bind_ok _ (at_next H Hh)). rewrite space_b in Hr. destruct (_ || _)%bool; [congruence|].
    unfold ret. change (zlen (@nil Z)) with 0. rewrite Z.add_0_r. reflexivity.
  - inversion HF as [|? ? Hb HF']; subst. cbn [app] in H. assert (A : 0 <= b < 128) by (unfold space in Hb; lia).
    rewrite (bind_ok _ (at_next H (head_ascii _ A))). apply space_b in Hb. rewrite Hb. unfold ret at 1.
    erewrite IH; [|exact (at_fwd1 H)|exact HF'|exact Hh|exact Hr|cbn in Hn; lia]. rewrite fwd_fwd, zlen_cons. cbn [fwd with_pos c_pos].
    f_equal; first [reflexivity|lia|f_equal; lia].
Qed.
Lemma literal_white c w s r wd : at_ c (w ++ s) -> Forall space w -> head_rune s = Some (r, wd) -> ~ space r ->
  skipWhiteInLiteral c = Ok (r, c_pos c + zlen w) (fwd (zlen w + wd) c).
Proof. intros H HF Hh Hr. unfold skipWhiteInLiteral, while. exact (literal_loop H HF Hh Hr (loop_fuel_enough H)). Qed.

(** ** The end of the text *)
Section EndOfText.
Variables (hs : Z) (tag : list Z).
Hypothesis Htag : exists r t, tag = r :: t /\ ~ space r /\ r <> "|"%ch /\ r <> "-"%ch.
Hypothesis Htag_ok : Forall (fun r => rune_ok r /\ r <> 10) tag.
Local Notation step := (endOfText_step hs (encode tag)).
Lemma tag_ok : Forall rune_ok tag. Proof. clear Htag. revert Htag_ok. apply Forall_impl. tauto. Qed.
Lemma tag_first : fst (decode_rune (encode tag)) = hd 0 tag.
Proof.
  destruct Htag as (r & t & E & _). pose proof tag_ok as F. rewrite E in F |- *. inversion F as [|? ? (H1 & H2 & H3) ?]; subst.
  rewrite encode_cons. rewrite decode_encode by exact H1. reflexivity.
Qed.
Lemma tag_not10 : 10 <> hd 0 tag.
Proof. destruct Htag as (r & t & E & _). pose proof Htag_ok as F. rewrite E in F |- *. inversion F; subst. cbn. intros X. subst. tauto. Qed.
(** the rest of a line *)
Lemma rest_loop l : forall n c0 sup ind c s, at_ c (encode l ++ 10 :: s) -> Forall (fun r => rune_ok r /\ r <> 10) l -> c0 <> 0 -> c0 <> 10 ->
  loop (S (List.length l) + n) step (c0, sup, ind) c = loop n step (10, sup, ind) (fwd (zlen (encode l) + 1) c).
Proof.
  induction l as [|r l IH]; intros n c0 sup ind c s H HF H0 H1.
  - change (S (List.length (@nil Z)) + n)%nat with (S n). apply loop_inl. unfold endOfText_step. destruct (Z.eqb_spec c0 0); [congruence|]. destruct (Z.eqb_spec c0 10); [congruence|].
    rewrite (bind_ok _ (at_next H (@head_ascii 10 s ltac:(lia)))). reflexivity.
  - inversion HF as [|? ? (R1 & R2) HF']; subst. rewrite encode_cons, <- app_assoc in H.
    change (S (List.length (r :: l)) + n)%nat with (S (S (List.length l) + n)). erewrite loop_inl.
    2: { unfold endOfText_step. destruct (Z.eqb_spec c0 0); [congruence|]. destruct (Z.eqb_spec c0 10); [congruence|].
         rewrite (bind_ok _ (at_next_rune H R1)). reflexivity. }
    erewrite IH; [|exact (at_fwd H)|exact HF'|destruct R1 as (_ & _ & R1); exact R1|exact R2].
    rewrite fwd_fwd, encode_cons, zlen_app. f_equal. f_equal. lia.
Qed.
(** Decoding is unambiguous: bytes that begin with an encoded text *)
Lemma encode_prefix a : forall b x y, Forall rune_ok a -> Forall rune_ok b -> encode a ++ x = encode b ++ 10 :: y -> ~ In 10 a ->
  exists b', b = a ++ b'.
Proof.
  induction a as [|r a IH]; intros b x y Ha Hb E N; [exists b; reflexivity|]. inversion Ha as [|? ? R Ha']; subst.
  assert (H1 : head_rune (encode (r :: a) ++ x) = Some (r, zlen (encode_rune r))) by (apply head_runes; [discriminate|exact Ha]).
  destruct b as [|r' b].
  - rewrite E in H1. cbn [encode flat_map app] in H1. rewrite head_ascii in H1 by lia. inversion H1; subst. cbn in N. tauto.
  - assert (H2 : head_rune (encode (r' :: b) ++ 10 :: y) = Some (r', zlen (encode_rune r'))) by (apply head_runes; [discriminate|exact Hb]).
    rewrite E in H1. rewrite H1 in H2. assert (r = r') by congruence. subst r'. clear H1 H2. rewrite !encode_cons, <- !app_assoc in E. apply app_inv_head in E.
    inversion Hb; subst. destruct (IH b x y Ha' ltac:(assumption) E) as (b' & ->); [cbn in N; tauto|]. exists b'. reflexivity.
Qed.
Lemma at_slice c a s : at_ c (a ++ s) -> slice (c_text c) (c_pos c) (c_pos c + zlen a) = a.
Proof.
  intros (pre & H1 & H2). unfold slice. rewrite H1, H2, skipn_zlen.
  replace (Z.to_nat _) with (List.length a) by (unfold zlen; lia). rewrite firstn_app, Nat.sub_diag. cbn. rewrite app_nil_r. now rewrite firstn_all.
Qed.
(** the comparison with the tag *)
Definition is_tag (n : Z) (c : ctx) : bool :=
  (n + zlen (encode tag) <=? zlen (c_text c)) && str_eqb (encode tag) (slice (c_text c) n (n + zlen (encode tag))).
Lemma is_tag_yes c s : at_ c (encode tag ++ s) -> is_tag (c_pos c) c = true.
Proof.
  intros H. unfold is_tag. rewrite (at_slice H), str_eqb_refl. pose proof (at_len H). unfold len in *. rewrite zlen_app in *. pose proof (zlen_nonneg s). unfold str in *. lia.
Qed.
Lemma is_tag_prefix c l s : at_ c (encode l ++ 10 :: s) -> Forall rune_ok l -> is_tag (c_pos c) c = true -> exists l', l = tag ++ l'.
Proof.
  intros H Hl E. unfold is_tag in E. apply andb_prop in E. destruct E as [E1 E2]. apply str_eqb_eq in E2.
  set (k := Z.to_nat (c_pos c + zlen (encode tag) - c_pos c)) in *.
  apply (@encode_prefix tag l (skipn k (encode l ++ 10 :: s)) s tag_ok Hl).
  - destruct H as (pre & H1 & H2). unfold slice in E2. fold k in E2. rewrite H1, H2, skipn_zlen in E2. rewrite E2 at 1. apply firstn_skipn.
  - intros I. rewrite Forall_forall in Htag_ok. apply Htag_ok in I. tauto.
Qed.
Definition tag_part (lineStart c n : Z) (suppressLastNL : bool) (indentStrip : Z) : M ((Z * bool * Z) + (Z * Z * Z)) :=
      if negb (c =? fst (decode_rune (encode tag))) then ret (inl (c, suppressLastNL, indentStrip))
      else
        text <- ask c_text ;;
        let tagEnd := n + zlen (encode tag) in
        if (tagEnd <=? zlen text) && str_eqb (encode tag) (slice text n tagEnd) then
          setPos tagEnd ;;
          '(c, n) <- skipWhiteInLiteral ;;
          if (c =? 10) || (c =? 0) then
            if suppressLastNL : bool then
              let e := lineStart - 1 in
              if (e - 1 <? 0) || (zlen text <=? e - 1) then throw (GoPanic GoIndex)
              else ret (inr (if nth (Z.to_nat (e - 1)) text 0 =? 13 then e - 1 else e, n, indentStrip))
            else ret (inr (lineStart, n, indentStrip))
          else ret (inl (c, suppressLastNL, indentStrip))
        else ret (inl (c, suppressLastNL, indentStrip)).
Lemma step_unfold sup ind c : step (10, sup, ind) c = 
  (lineStart <- getPos ;;
    '(c, n) <- skipWhiteInLiteral ;;
    if c =? 0 then setPos hs ;; issue LEX_HEREDOC_UNTERMINATED
    else
      '(c, n, indentStrip) <- (if c =? "|"%ch then
                                 '(c', n') <- skipWhiteInLiteral ;; ret (c', n', n - lineStart)
                               else ret (c, n, ind)) ;;
      '(c, n, suppressLastNL) <- (if c =? "-"%ch then
                                    '(c', n') <- skipWhiteInLiteral ;; ret (c', n', true)
                                  else ret (c, n, sup)) ;;
      tag_part lineStart c n suppressLastNL indentStrip) c.
Proof. reflexivity. Qed.
Lemma split_white l : exists w l', l = w ++ l' /\ Forall space w /\ (l' = [] \/ exists r l'', l' = r :: l'' /\ ~ space r).
Proof.
  induction l as [|r l (w & l' & -> & HW & HL)].
  - exists [], []. repeat split; auto.
  - destruct ((r =? " "%ch) || (r =? 13) || (r =? 9))%bool eqn:E.
    + exists (r :: w), l'. split; [reflexivity|]. split; [constructor; [apply space_b; exact E|exact HW]|exact HL].
    + exists [], (r :: w ++ l'). split; [reflexivity|]. split; [constructor|]. right. exists r, (w ++ l'). split; [reflexivity|].
      rewrite space_b. congruence.
Qed.
(** a line of the content *)
Lemma line_loop l c s : at_ c (encode l ++ 10 :: s) -> content_line tag l -> exists k, (k <= List.length l + 1)%nat /\
  forall n, loop (k + n) step (10, false, 0) c = loop n step (10, false, 0) (fwd (zlen (encode l) + 1) c).
Proof.
  intros H (HF & NE & NM). destruct (split_white l) as (w & l' & -> & HW & HL).
  pose proof (space_ascii HW) as EW. rewrite encode_app, EW, <- app_assoc in H. apply Forall_app in HF. destruct HF as [_ HF].
  destruct HL as [-> | (r & l'' & -> & Hr)].
  - exists 1%nat. split; [lia|]. intros n. cbn [plus loop]. unfold bind at 1. rewrite step_unfold. unfold tag_part. unfold bind at 1, getPos at 1, ask at 1.
    cbn [encode flat_map app] in H. rewrite (bind_ok _ (@literal_white c w _ 10 1 H HW (@head_ascii 10 _ ltac:(lia)) ltac:(unfold space; lia))).
    change (10 =? 0) with false. change (10 =? "|"%ch) with false. cbv iota. unfold bind at 1, ret at 1. change (10 =? "-"%ch) with false. cbv iota. unfold bind at 1, ret at 1.
    rewrite tag_first. destruct (Z.eqb_spec 10 (hd 0 tag)) as [X|_]; [destruct (tag_not10 X)|]. cbn [negb]. unfold ret at 1.
    rewrite app_nil_r, EW. reflexivity.
  - inversion HF as [|? ? (R1 & R2) HF']; subst.
    assert (Hh : head_rune (encode (r :: l'') ++ 10 :: s) = Some (r, zlen (encode_rune r))).
    { apply head_runes; [discriminate|]. constructor; [exact R1|]. revert HF'. apply Forall_impl. tauto. }
    assert (R0 : r <> 0) by (destruct R1 as (_ & _ & R0); exact R0).
    assert (R3 : r <> "|"%ch) by (intros ->; apply NM; exists w, "|"%ch, l''; repeat split; auto).
    assert (R4 : r <> "-"%ch) by (intros ->; apply NM; exists w, "-"%ch, l''; repeat split; auto).
    set (c1 := fwd (zlen w + zlen (encode_rune r)) c).
    assert (H1 : at_ c1 (encode l'' ++ 10 :: s)).
    { unfold c1. rewrite <- fwd_fwd. apply at_fwd. apply at_fwd in H. rewrite encode_cons, <- app_assoc in H. exact H. }
    assert (E1 : step (10, false, 0) c = (if negb (r =? hd 0 tag) then ret (inl (r, false, 0))
      else if is_tag (c_pos c + zlen w) c1 then setPos (c_pos c + zlen w + zlen (encode tag)) ;;
          '(x, n) <- skipWhiteInLiteral ;;
          if (x =? 10) || (x =? 0) then ret (inr (c_pos c, n, 0)) else ret (inl (x, false, 0))
        else ret (inl (r, false, 0))) c1).
    { rewrite step_unfold. unfold tag_part. unfold bind at 1, getPos at 1, ask at 1.
      rewrite (bind_ok _ (@literal_white c w _ r _ H HW Hh Hr)). destruct (Z.eqb_spec r 0); [congruence|]. 
      destruct (Z.eqb_spec r "|"%ch); [congruence|]. unfold bind at 1, ret at 1. destruct (Z.eqb_spec r "-"%ch); [congruence|]. unfold bind at 1, ret at 1.
      rewrite tag_first. fold c1. destruct (r =? hd 0 tag); cbn [negb]; [|reflexivity]. unfold bind at 1, ask at 1. unfold is_tag. destruct (_ && _)%bool; reflexivity. }
    assert (K : forall x l2 p, x <> 0 -> x <> 10 -> Forall (fun r => rune_ok r /\ r <> 10) l2 -> step (10, false, 0) c = Ok (inl (x, false, 0)) (with_pos p c) ->
      at_ (with_pos p c) (encode l2 ++ 10 :: s) -> (List.length l2 <= List.length l'')%nat ->
      exists k, (k <= List.length (w ++ r :: l'') + 1)%nat /\ forall n, loop (k + n) step (10, false, 0) c = loop n step (10, false, 0) (fwd (zlen (encode (w ++ r :: l'')) + 1) c)).
    { intros x l2 p X1 X2 HF2 ES H2 HL2. exists (S (S (List.length l2))). split; [rewrite app_length; cbn; lia|]. intros n.
      change (S (S (List.length l2)) + n)%nat with (S (S (List.length l2) + n)). rewrite (loop_inl _ ES).
      erewrite rest_loop; [|exact H2|exact HF2|exact X1|exact X2]. f_equal.
      pose proof (at_len H2) as L2. pose proof (at_len H) as L. unfold len, fwd in *. cbn [with_pos c_pos c_text] in *.
      unfold str in *. rewrite !zlen_app, zlen_cons in *. rewrite encode_app, zlen_app, EW.
      change (with_pos (p + (zlen (encode l2) + 1)) (with_pos p c)) with (with_pos (p + (zlen (encode l2) + 1)) c). f_equal. lia. }
    destruct (Z.eqb_spec r (hd 0 tag)) as [Et|Et]; cbn [negb] in E1.
    2: { apply (K r l'' (c_pos c + (zlen w + zlen (encode_rune r)))); auto. }
    destruct (is_tag (c_pos c + zlen w) c1) eqn:ET.
    2: { apply (K r l'' (c_pos c + (zlen w + zlen (encode_rune r)))); auto. }
    assert (HO : Forall rune_ok (r :: l'')) by (revert HF; apply Forall_impl; tauto).
    destruct (@is_tag_prefix (fwd (zlen w) c) (r :: l'') s (at_fwd H) HO ET) as (l2 & E2).
    rewrite E2 in H, HF. rewrite encode_app, <- app_assoc in H. apply Forall_app in HF. destruct HF as [_ HF].
    destruct (split_white l2) as (w2 & l3 & -> & HW2 & HL2). pose proof (space_ascii HW2) as EW2.
    destruct HL2 as [-> | (r3 & l4 & -> & Hr3)].
    { exfalso. apply NE. exists w, w2. rewrite E2, app_nil_r. auto. }
    apply Forall_app in HF. destruct HF as [_ HF]. destruct (Forall_inv HF) as (R5 & R6). pose proof (Forall_inv_tail HF) as HF4.
    rewrite encode_app, EW2, <- app_assoc in H.
    assert (H3 : at_ (with_pos (c_pos c + zlen w + zlen (encode tag)) c1) (w2 ++ encode (r3 :: l4) ++ 10 :: s)).
    { apply at_fwd in H. apply at_fwd in H. rewrite fwd_fwd in H. eapply at_state; [exact H|reflexivity|cbn; lia]. }
    assert (Hh3 : head_rune (encode (r3 :: l4) ++ 10 :: s) = Some (r3, zlen (encode_rune r3))).
    { apply head_runes; [discriminate|]. revert HF. apply Forall_impl. tauto. }
    unfold bind at 1 in E1. unfold setPos at 1 in E1. unfold modify at 1 in E1. rewrite (bind_ok _ (@literal_white _ w2 _ r3 _ H3 HW2 Hh3 Hr3)) in E1.
    assert (R7 : r3 <> 0) by (destruct R5 as (_ & _ & R0'); exact R0').
    replace ((r3 =? 10) || (r3 =? 0))%bool with false in E1 by lia.
    eapply (K r3 l4); [exact R7|exact R6|exact HF4|exact E1| |].
    + eapply (@at_state (fwd (zlen w2 + zlen (encode_rune r3)) (with_pos (c_pos c + zlen w + zlen (encode tag)) c1))); [|reflexivity|reflexivity]. rewrite <- fwd_fwd. apply at_fwd. apply at_fwd in H3. rewrite encode_cons, <- app_assoc in H3. exact H3.
    + assert (LL : List.length (r :: l'') = List.length (tag ++ w2 ++ r3 :: l4)) by congruence. rewrite !app_length in LL. cbn in LL. destruct Htag as (? & ? & ET' & _). rewrite ET' in LL. cbn in LL. lia.
Qed.
Lemma lines_loop ls : forall c s, at_ c (encode (content ls) ++ s) -> Forall (content_line tag) ls -> exists k, (k <= List.length (content ls))%nat /\
  forall n, loop (k + n) step (10, false, 0) c = loop n step (10, false, 0) (fwd (zlen (encode (content ls))) c).
Proof.
  induction ls as [|l ls IH]; intros c s H HF.
  - exists O. split; [lia|]. intros n. change (encode (content [])) with (@nil Z). change (zlen (@nil Z)) with 0. rewrite fwd_0. reflexivity.
  - change (content (l :: ls)) with ((l ++ [10]) ++ content ls) in *. rewrite <- app_assoc in H. rewrite encode_app, <- app_assoc in H.
    assert (H' : at_ c (encode l ++ 10 :: encode (content ls) ++ s)) by exact H.
    inversion HF as [|? ? HL HF']; subst.
    assert (H2 : at_ (fwd (zlen (encode l) + 1) c) (encode (content ls) ++ s)).
    { rewrite <- fwd_fwd. apply (@at_fwd1 _ 10). apply at_fwd. exact H. }
    destruct (IH _ _ H2 HF') as (k & Hk & E).
    destruct (@line_loop l c _ H' HL) as (k1 & Hk1 & E1). exists (k1 + k)%nat. split; [rewrite !app_length; cbn; lia|].
    intros n. rewrite <- Nat.add_assoc, E1, E, fwd_fwd. rewrite !encode_app, !zlen_app. reflexivity.
Qed.
(** the line that ends the heredoc *)
Lemma ending_step e c s : at_ c (encode (ending_text tag e) ++ s) -> ended e -> s = [] \/ (exists s', s = 10 :: s') ->
  (e_dash e <> None -> 2 <= c_pos c) ->
  exists p, step (10, false, 0) c = Ok (inr (match e_dash e with
    | None => c_pos c
    | Some _ => if nth (Z.to_nat (c_pos c - 1 - 1)) (c_text c) 0 =? 13 then c_pos c - 1 - 1 else c_pos c - 1 end,
    c_pos c + zlen (encode (ending_text tag e)), Z.of_nat (margin e))) (with_pos p c).
Proof.
  intros H (W0 & W1 & W2 & W3) Hs HD. destruct e as [w0 m d w3]. cbn [e_before e_margin e_dash e_after] in *. unfold ending_text, margin in *. cbn [e_before e_margin e_dash e_after] in *.
  assert (HE : exists r wd, head_rune s = Some (r, wd) /\ ~ space r /\ ((r =? 10) || (r =? 0))%bool = true).
  { destruct Hs as [-> | (s' & ->)]; [exists 0, 0|exists 10, 1]; (split; [reflexivity|split; [unfold space; lia|reflexivity]]). }
  destruct HE as (re & we & HE & HE1 & HE2).
  destruct Htag as (t0 & t1 & Et & Ht0 & Ht1 & Ht2).
  assert (T0 : t0 <> 0). { pose proof tag_ok as F. rewrite Et in F. inversion F as [|? ? (_ & _ & F') ?]; subst. exact F'. }
  (* the tag, wherever it begins *)
  assert (K : forall q sup ind ls, at_ (with_pos q c) (encode tag ++ w3 ++ s) -> (sup = true -> 2 <= ls) -> ls <= len c -> forall p0,
    exists p, tag_part ls t0 q sup ind (with_pos p0 c) = Ok (inr (if sup then if nth (Z.to_nat (ls - 1 - 1)) (c_text c) 0 =? 13 then ls - 1 - 1 else ls - 1 else ls, q + zlen (encode tag) + zlen w3, ind)) (with_pos p c)).
  { intros q sup ind ls Hq Hls Hls2 p0. unfold tag_part. rewrite tag_first. assert (Eh : hd 0 tag = t0) by (rewrite Et; reflexivity). rewrite Eh, Z.eqb_refl. cbn [negb]. unfold bind at 1, ask at 1. cbv zeta.
    pose proof (is_tag_yes Hq) as IT. unfold is_tag in IT. cbn [with_pos c_text c_pos] in IT |- *. rewrite IT. unfold bind at 1, setPos at 1, modify at 1.
    assert (Hq2 : at_ (with_pos (q + zlen (encode tag)) (with_pos p0 c)) (w3 ++ s)).
    { apply at_fwd in Hq. eapply at_state; [exact Hq|reflexivity|reflexivity]. }
    rewrite (bind_ok _ (@literal_white _ w3 _ re we Hq2 W3 HE HE1)). rewrite HE2. unfold len in *. exists (q + zlen (encode tag) + (zlen w3 + we)). destruct sup.
    - cbv zeta. specialize (Hls eq_refl). unfold str in *. replace ((ls - 1 - 1 <? 0) || (zlen (c_text c) <=? ls - 1 - 1))%bool with false by lia. reflexivity.
    - reflexivity. }
  assert (F1 : forall z, head_rune (encode tag ++ z) = Some (t0, zlen (encode_rune t0))).
  { intros z. rewrite (@head_runes tag z); [rewrite Et; reflexivity|rewrite Et; discriminate|exact tag_ok]. }
  pose proof (space_ascii W0) as E0. pose proof (space_ascii W3) as E3.
  assert (HL : c_pos c <= len c). { pose proof (at_len H). pose proof (zlen_nonneg (encode (w0 ++ match m with Some w => "|"%ch :: w | None => [] end ++ match d with Some w => "-"%ch :: w | None => [] end ++ tag ++ w3) ++ s)). lia. }
  rewrite step_unfold. unfold bind at 1, getPos at 1, ask at 1.
  assert (EN : zlen (encode (w0 ++ match m with Some w => "|"%ch :: w | None => [] end ++ match d with Some w => "-"%ch :: w | None => [] end ++ tag ++ w3))
     = zlen w0 + match m with Some w => 1 + zlen w | None => 0 end + match d with Some w => 1 + zlen w | None => 0 end + zlen (encode tag) + zlen w3).
  { rewrite !encode_app, !zlen_app, E0, E3. destruct m as [w1|], d as [w2|]; rewrite ?encode_cons, ?(space_ascii (W1 _ eq_refl)), ?(space_ascii (W2 _ eq_refl)), ?zlen_app, ?encode_ascii by lia;
      unfold zlen; cbn [List.length encode flat_map]; lia. }
  rewrite EN. clear EN.
  assert (H0 : at_ c (w0 ++ (match m with Some w => "|"%ch :: w | None => [] end ++ match d with Some w => "-"%ch :: w | None => [] end ++ encode tag ++ w3 ++ s))).
  { rewrite !encode_app, E0, E3 in H. destruct m as [w1|], d as [w2|]; rewrite ?encode_cons, ?(space_ascii (W1 _ eq_refl)), ?(space_ascii (W2 _ eq_refl)), <- ?app_assoc in H; exact H. }
  clear H. pose proof (fun z => @head_ascii "|"%ch z ltac:(lia)) as HB. pose proof (fun z => @head_ascii "-"%ch z ltac:(lia)) as HM.
  assert (SB : ~ space "|"%ch) by (unfold space; lia). assert (SM : ~ space "-"%ch) by (unfold space; lia).
  destruct m as [w1|], d as [w2|]; cbn [app] in H0.
  - specialize (W1 _ eq_refl). specialize (W2 _ eq_refl).
    rewrite (bind_ok _ (@literal_white c w0 _ _ _ H0 W0 (HB _) SB)). change ("|"%ch =? 0) with false. change ("|"%ch =? "|"%ch) with true. cbv iota.
    apply at_fwd in H0. apply at_fwd1 in H0. rewrite fwd_fwd in H0.
    unfold bind at 1. rewrite (bind_ok _ (@literal_white _ w1 _ _ _ H0 W1 (HM _) SM)). unfold ret at 1. change ("-"%ch =? "-"%ch) with true. cbv iota.
    apply at_fwd in H0. apply at_fwd1 in H0. rewrite !fwd_fwd in H0.
    unfold bind at 1. rewrite fwd_fwd.
    rewrite (bind_ok _ (@literal_white _ w2 _ _ _ H0 W2 (F1 _) Ht0)). unfold ret at 1.
    apply at_fwd in H0. rewrite fwd_fwd in H0. rewrite fwd_fwd.
    edestruct (K (c_pos c + (zlen w0 + 1 + (zlen w1 + 1) + zlen w2)) true (c_pos c + zlen w0 - c_pos c) (c_pos c)) as (p & E); [exact H0|intros _; apply HD; discriminate|exact HL|].
    exists p. match type of E with ?x = ?y => match goal with |- ?u = ?v => replace u with x; [replace v with y; [exact E|]|] end end.
    + first [f_equal; f_equal; f_equal; [f_equal; lia|unfold zlen; lia]|f_equal; f_equal; f_equal; f_equal; lia].
    + unfold fwd. cbn [with_pos c_pos]. first [reflexivity|match goal with |- tag_part ?a ?b ?q ?x ?y _ = tag_part _ _ ?q2 _ ?y2 _ => replace q with q2 by lia; replace y with y2 by lia; reflexivity end].
  - specialize (W1 _ eq_refl).
    rewrite (bind_ok _ (@literal_white c w0 _ _ _ H0 W0 (HB _) SB)). change ("|"%ch =? 0) with false. change ("|"%ch =? "|"%ch) with true. cbv iota.
    apply at_fwd in H0. apply at_fwd1 in H0. rewrite fwd_fwd in H0.
    unfold bind at 1. rewrite (bind_ok _ (@literal_white _ w1 _ _ _ H0 W1 (F1 _) Ht0)). unfold ret at 1. destruct (Z.eqb_spec t0 "-"%ch); [congruence|].
    apply at_fwd in H0. rewrite !fwd_fwd in H0. unfold bind at 1, ret at 1. rewrite fwd_fwd.
    edestruct (K (c_pos c + (zlen w0 + 1 + zlen w1)) false (c_pos c + zlen w0 - c_pos c) (c_pos c)) as (p & E); [exact H0|discriminate|exact HL|].
    exists p. match type of E with ?x = ?y => match goal with |- ?u = ?v => replace u with x; [replace v with y; [exact E|]|] end end.
    + first [f_equal; f_equal; f_equal; [f_equal; lia|unfold zlen; lia]|f_equal; f_equal; f_equal; f_equal; lia].
    + unfold fwd. cbn [with_pos c_pos]. first [reflexivity|match goal with |- tag_part ?a ?b ?q ?x ?y _ = tag_part _ _ ?q2 _ ?y2 _ => replace q with q2 by lia; replace y with y2 by lia; reflexivity end].
  - specialize (W2 _ eq_refl).
    rewrite (bind_ok _ (@literal_white c w0 _ _ _ H0 W0 (HM _) SM)). change ("-"%ch =? 0) with false. change ("-"%ch =? "|"%ch) with false. cbv iota.
    apply at_fwd in H0. apply at_fwd1 in H0. rewrite fwd_fwd in H0. unfold bind at 1, ret at 1. change ("-"%ch =? "-"%ch) with true. cbv iota.
    unfold bind at 1. rewrite (bind_ok _ (@literal_white _ w2 _ _ _ H0 W2 (F1 _) Ht0)). unfold ret at 1.
    apply at_fwd in H0. rewrite !fwd_fwd in H0. rewrite fwd_fwd.
    edestruct (K (c_pos c + (zlen w0 + 1 + zlen w2)) true 0 (c_pos c)) as (p & E); [exact H0|intros _; apply HD; discriminate|exact HL|].
    exists p. match type of E with ?x = ?y => match goal with |- ?u = ?v => replace u with x; [replace v with y; [exact E|]|] end end.
    + first [f_equal; f_equal; f_equal; [f_equal; lia|unfold zlen; lia]|f_equal; f_equal; f_equal; f_equal; lia].
    + unfold fwd. cbn [with_pos c_pos]. first [reflexivity|match goal with |- tag_part ?a ?b ?q ?x ?y _ = tag_part _ _ ?q2 _ ?y2 _ => replace q with q2 by lia; replace y with y2 by lia; reflexivity end].
  - rewrite (bind_ok _ (@literal_white c w0 _ _ _ H0 W0 (F1 _) Ht0)). destruct (Z.eqb_spec t0 0); [congruence|]. destruct (Z.eqb_spec t0 "|"%ch); [congruence|].
    apply at_fwd in H0. unfold bind at 1, ret at 1. destruct (Z.eqb_spec t0 "-"%ch); [congruence|]. unfold bind at 1, ret at 1.
    edestruct (K (c_pos c + zlen w0) false 0 (c_pos c)) as (p & E); [exact H0|discriminate|exact HL|].
    exists p. match type of E with ?x = ?y => match goal with |- ?u = ?v => replace u with x; [replace v with y; [exact E|]|] end end.
    + first [f_equal; f_equal; f_equal; [f_equal; lia|unfold zlen; lia]|f_equal; f_equal; f_equal; f_equal; lia].
    + unfold fwd. cbn [with_pos c_pos]. first [reflexivity|match goal with |- tag_part ?a ?b ?q ?x ?y _ = tag_part _ _ ?q2 _ ?y2 _ => replace q with q2 by lia; replace y with y2 by lia; reflexivity end].
Qed.
End EndOfText.

(** ** The declaration *)
Section Declaration.
Variables (hs start : Z).
Local Notation step := (tagEnd_step start hs).
Lemma peek_rune c r s : at_ c (encode_rune r ++ s) -> rune_ok r -> peek c = Ok (r, zlen (encode_rune r)) c.
Proof. intros H (H1 & H2 & H3). apply (at_peek H). apply head_encode; auto. Qed.
Lemma peek_ascii c r s : at_ c (r :: s) -> 0 <= r < 128 -> peek c = Ok (r, 1) c.
Proof. intros H Hr. apply (at_peek H). apply head_ascii. exact Hr. Qed.
Lemma plain_loop l : forall n d c s, at_ c (encode l ++ s) -> Forall plain_in_declaration l ->
  loop (List.length l + n) step d c = loop n step d (fwd (zlen (encode l)) c).
Proof.
  induction l as [|r l IH]; intros n d c s H HF.
  - change (zlen (encode [])) with 0. rewrite fwd_0. reflexivity.
  - inversion HF as [|? ? (R1 & R2 & R3 & R4 & R5 & R6) HF']; subst. rewrite encode_cons, <- app_assoc in H.
    change (List.length (r :: l) + n)%nat with (S (List.length l + n)). erewrite loop_inl.
    2: { unfold tagEnd_step. rewrite (bind_ok _ (peek_rune H R1)). assert (R0 : r <> 0) by (destruct R1 as (_ & _ & R0); exact R0).
         replace ((r =? 0) || (r =? 10))%bool with false by lia.
         repeat match goal with |- context [r =? ?x] => destruct (Z.eqb_spec r x); [congruence|] end.
         unfold bind, advance, modify, ret. fold (fwd (zlen (encode_rune r)) c). reflexivity. }
    erewrite IH; [|exact (at_fwd H)|exact HF']. rewrite fwd_fwd, encode_cons, zlen_app. reflexivity.
Qed.
Definition get_tag (d : hdecl) : M str := match h_tag d with [] => from start | t => ret t end.
Definition flag_list (fs : list Z) : list Z := map (fun f => if f =? "L"%ch then 10 else f) fs.
Lemma letter_facts r : In r (lit "trnsuL$") -> plain_in_declaration r.
Proof.
  intros H. assert (0 < r < 128 /\ r <> 10 /\ r <> ")"%ch /\ r <> ":"%ch /\ r <> "/"%ch /\ r <> """"%ch) as (A & B).
  { cbn in H. repeat (destruct H as [<- | H]; [lia|]). tauto. }
  split; [apply rune_ok_ascii; exact A|exact B].
Qed.
Lemma flags_ok p fs c : Forall (fun r => In r (lit "trnsuL$")) fs -> extract_flags p fs c = Ok (flag_list fs) c.
Proof.
  induction 1 as [|r fs H _ IH]; [reflexivity|]. cbn [extract_flags flag_list map].
  cbn in H. repeat (destruct H as [<- | H]; [cbn; unfold bind; rewrite IH; reflexivity|]). tauto.
Qed.
Lemma encode_letters fs : Forall (fun r => In r (lit "trnsuL$")) fs -> encode fs = fs.
Proof. intros H. apply encode_asciis. revert H. apply Forall_impl. intros r H. cbn in H. repeat (destruct H as [<- | H]; [lia|]). tauto. Qed.

(** the close of the declaration *)
Lemma close_part d c s tag fs syn : at_ c (")"%ch :: s) -> get_tag d c = Ok (encode tag) c ->
  (if 0 <? h_syntaxStart d then from (h_syntaxStart d) else ret (h_syntax d)) c = Ok syn c ->
  (if 0 <? h_escapeStart d then f <- extractFlags (h_escapeStart d) ;; ret (Some f) else ret (h_flags d)) c = Ok fs c ->
  step d c = Ok (inr (mkhdecl (encode tag) syn fs (h_quoteStart d) (h_syntaxStart d) (h_escapeStart d), c_pos c + 1)) (fwd 1 c).
Proof.
  intros H Ht Hs Hf. unfold tagEnd_step. rewrite (bind_ok _ (@peek_ascii c _ _ H ltac:(lia))). change ((")"%ch =? 0) || (")"%ch =? 10)) with false. change (")"%ch =? ")"%ch) with true. cbv iota.
  rewrite (bind_ok _ Hs), (bind_ok _ Hf), (bind_ok _ Ht). reflexivity.
Qed.
(** the flags *)
Lemma flags_part d c s tag fl syn : at_ c (encode (match fl with Some f => "/"%ch :: f | None => [] end) ++ ")"%ch :: s) -> get_tag d c = Ok (encode tag) c -> tag <> [] ->
  (if 0 <? h_syntaxStart d then from (h_syntaxStart d) else ret (h_syntax d)) c = Ok syn c -> h_escapeStart d = -1 -> h_flags d = None ->
  (h_tag d = [] -> h_syntaxStart d = -1) ->
  (forall f, fl = Some f -> Forall (fun r => In r (lit "trnsuL$")) f) ->
  exists k ss es, (k <= List.length (match fl with Some f => "/"%ch :: f | None => [] end) + 1)%nat /\
  forall n, loop (k + n) step d c = Ok (mkhdecl (encode tag) syn (match fl with Some f => Some (flag_list f) | None => None end) (h_quoteStart d) ss es,
     c_pos c + zlen (encode (match fl with Some f => "/"%ch :: f | None => [] end)) + 1) (fwd (zlen (encode (match fl with Some f => "/"%ch :: f | None => [] end)) + 1) c).
Proof.
  intros H Ht Htag Hs He Hf Hd HF. destruct fl as [f|].
  - specialize (HF f eq_refl). rewrite encode_cons, (@encode_ascii "/"%ch) in H by lia. cbn [app] in H. pose proof (at_fwd1 H) as H1.
    set (ss' := if 0 <? h_syntaxStart d then -1 else h_syntaxStart d). set (d1 := mkhdecl (encode tag) syn None (h_quoteStart d) ss' (c_pos c + 1)).
    assert (NE : encode tag <> []) by (intros X; pose proof (encode_length tag) as L; rewrite X in L; destruct tag; [congruence|cbn in L; lia]).
    assert (E1 : step d c = Ok (inl d1) (fwd 1 c)).
    { unfold tagEnd_step. rewrite (bind_ok _ (@peek_ascii c _ _ H ltac:(lia))). change (("/"%ch =? 0) || ("/"%ch =? 10)) with false. change ("/"%ch =? ")"%ch) with false. change ("/"%ch =? ":"%ch) with false. change ("/"%ch =? "/"%ch) with true. cbv iota.
      rewrite He. change (0 <? -1) with false. cbv iota. unfold bind at 1. unfold get_tag in Ht. destruct d as [t sy ff qs ss es]. cbn [h_tag h_syntax h_flags h_quoteStart h_syntaxStart h_escapeStart] in *. subst.
      destruct t as [|t0 t1].
      - rewrite (bind_ok _ Ht). specialize (Hd eq_refl). subst ss. cbn in Hs. inversion Hs; subst. reflexivity.
      - inversion Ht as [E0]. destruct (0 <? ss) eqn:Ess.
        + rewrite (bind_ok _ Hs). unfold d1, ss'. rewrite <- E0. cbn [h_syntaxStart]. try rewrite Ess. reflexivity.
        + inversion Hs; subst. unfold ret at 1. unfold d1, ss'. rewrite <- E0. cbn [h_syntaxStart]. try rewrite Ess. reflexivity. }
    assert (P1 : Forall plain_in_declaration f) by (revert HF; apply Forall_impl; apply letter_facts).
    pose proof (at_fwd H1) as H2. pose proof (at_pos H) as P0.
    assert (E2 : step d1 (fwd (zlen (encode f)) (fwd 1 c)) = Ok (inr (mkhdecl (encode tag) syn (Some (flag_list f)) (h_quoteStart d) ss' (c_pos c + 1), c_pos c + 1 + zlen (encode f) + 1)) (fwd 1 (fwd (zlen (encode f)) (fwd 1 c)))).
    { rewrite (@close_part d1 _ s tag (Some (flag_list f)) syn H2).
      - reflexivity.
      - unfold get_tag, d1. cbn [h_tag]. destruct (encode tag) eqn:EE; [congruence|reflexivity].
      - unfold d1, ss'. cbn [h_syntaxStart h_syntax]. destruct (0 <? h_syntaxStart d) eqn:Ess; [reflexivity|rewrite Ess; reflexivity].
      - unfold d1. cbn [h_escapeStart]. replace (0 <? c_pos c + 1) with true by lia. unfold extractFlags. unfold bind at 1. rewrite (bind_ok _ (@at_from (fwd 1 c) _ _ (c_pos c + 1) H1 eq_refl)).
        rewrite (encode_letters HF), (flags_ok _ _ HF). reflexivity. }
    exists (S (List.length f + 1)), ss', (c_pos c + 1). split; [cbn; lia|]. intros n. change (S (List.length f + 1) + n)%nat with (S (List.length f + 1 + n)).
    rewrite (loop_inl _ E1), <- Nat.add_assoc. erewrite plain_loop; [|exact H1|exact P1]. cbn [plus loop]. unfold bind at 1. rewrite E2. unfold ret.
    rewrite !fwd_fwd, encode_cons, zlen_app. change (zlen (encode_rune "/"%ch)) with 1.
    f_equal; first [reflexivity|lia|f_equal; lia].
  - cbn [encode flat_map app] in H. exists 1%nat, (h_syntaxStart d), (h_escapeStart d). split; [cbn; lia|]. intros n. cbn [plus loop]. unfold bind at 1.
    rewrite (@close_part d c s tag None syn H Ht Hs); [unfold ret|rewrite He; change (0 <? -1) with false; cbv iota; rewrite Hf; reflexivity].
    change (zlen (encode [])) with 0. f_equal. f_equal. lia.
Qed.
(** the syntax *)
Definition opt_part (x : Z) (o : option (list Z)) : list Z := match o with Some s => x :: s | None => [] end.
Lemma syntax_part d c s tag sy fl : at_ c (encode (opt_part ":"%ch sy) ++ encode (opt_part "/"%ch fl) ++ ")"%ch :: s) -> get_tag d c = Ok (encode tag) c -> tag <> [] ->
  h_syntax d = [] -> h_syntaxStart d = -1 -> h_escapeStart d = -1 -> h_flags d = None ->
  (forall f, sy = Some f -> Forall plain_in_declaration f) ->
  (forall f, fl = Some f -> Forall (fun r => In r (lit "trnsuL$")) f) ->
  exists k ss es, (k <= List.length (opt_part ":"%ch sy) + List.length (opt_part "/"%ch fl) + 1)%nat /\
  forall n, loop (k + n) step d c = Ok (mkhdecl (encode tag) (encode (match sy with Some x => x | None => [] end)) (option_map flag_list fl) (h_quoteStart d) ss es,
     c_pos c + zlen (encode (opt_part ":"%ch sy)) + zlen (encode (opt_part "/"%ch fl)) + 1) (fwd (zlen (encode (opt_part ":"%ch sy)) + zlen (encode (opt_part "/"%ch fl)) + 1) c).
Proof.
  intros H Ht Htag S0 S1 He Hf HS HF. destruct sy as [sy|]; cbn [opt_part] in *.
  - specialize (HS sy eq_refl). rewrite encode_cons, (@encode_ascii ":"%ch) in H by lia. rewrite <- app_assoc in H. cbn [app] in H. pose proof (at_fwd1 H) as H1. pose proof (at_pos H) as P0.
    assert (NE : encode tag <> []) by (intros X; pose proof (encode_length tag) as L; rewrite X in L; destruct tag; [congruence|cbn in L; lia]).
    set (d1 := mkhdecl (encode tag) [] None (h_quoteStart d) (c_pos c + 1) (-1)).
    assert (E1 : step d c = Ok (inl d1) (fwd 1 c)).
    { unfold tagEnd_step. rewrite (bind_ok _ (@peek_ascii c _ _ H ltac:(lia))). change ((":"%ch =? 0) || (":"%ch =? 10)) with false. change (":"%ch =? ")"%ch) with false. change (":"%ch =? ":"%ch) with true. cbv iota.
      rewrite S1. change (0 <? -1) with false. cbv iota. unfold get_tag in Ht. rewrite (bind_ok _ Ht). unfold d1. rewrite S0, He, Hf. reflexivity. }
    destruct (@flags_part d1 (fwd (zlen (encode sy)) (fwd 1 c)) s tag fl (encode sy)) as (k & ss & es & Hk & E).
    + apply at_fwd. exact H1.
    + unfold get_tag, d1. cbn [h_tag]. destruct (encode tag) eqn:EE; [congruence|reflexivity].
    + exact Htag.
    + unfold d1. cbn [h_syntaxStart]. replace (0 <? c_pos c + 1) with true by lia. apply (@at_from (fwd 1 c) _ _ (c_pos c + 1) H1 eq_refl).
    + reflexivity.
    + reflexivity.
    + unfold d1. cbn [h_tag]. congruence.
    + exact HF.
    + exists (S (List.length sy + k)), ss, es. split; [cbn [List.length]; unfold opt_part; lia|]. intros n. change (S (List.length sy + k) + n)%nat with (S (List.length sy + k + n)).
      rewrite (loop_inl _ E1), <- Nat.add_assoc. erewrite plain_loop; [|exact H1|exact HS]. rewrite E. unfold d1. cbn [h_quoteStart].
      rewrite !fwd_fwd, encode_cons, zlen_app. change (zlen (encode_rune ":"%ch)) with 1. unfold fwd. cbn [with_pos c_pos]. fold (opt_part "/"%ch fl). unfold option_map.
      f_equal; first [reflexivity|lia|f_equal; lia].
  - destruct (@flags_part d c s tag fl []) as (k & ss & es & Hk & E); auto.
    + rewrite S1. change (0 <? -1) with false. cbv iota. rewrite S0. reflexivity.
    + exists k, ss, es. split; [cbn [List.length]; unfold opt_part; lia|]. intros n. rewrite E. fold (opt_part "/"%ch fl). change (zlen (encode [])) with 0. unfold option_map.
      f_equal. f_equal. lia.
Qed.
End Declaration.
Lemma skip_while_runes p l : forall n k c s r w, at_ c (encode l ++ s) -> Forall (fun x => rune_ok x /\ p x = true) l ->
  head_rune s = Some (r, w) -> p r = false -> (List.length l < n)%nat ->
  loop n (fun count => '(c, n) <- peek ;; if p c then advance n ;; ret (inl (count + 1)) else ret (inr (count, (c, n)))) k c
  = Ok (k + zlen l, (r, w)) (fwd (zlen (encode l)) c).
Proof.
  induction l as [|b l IH]; intros n k c s r w H HF Hh Hp Hn; (destruct n as [|n]; [cbn in *; lia|]).
  - cbn [loop]. change (encode []) with (@nil Z) in *. cbn [app] in H. unfold bind at 1. rewrite (bind_ok _ (at_peek H Hh)). rewrite Hp. change (zlen (@nil Z)) with 0. rewrite fwd_0, Z.add_0_r. reflexivity.
  - inversion HF as [|? ? [Hb1 Hb2] HF']; subst. rewrite encode_cons, <- app_assoc in H. erewrite loop_inl.
    2: { rewrite (bind_ok _ (peek_rune H Hb1)). rewrite Hb2. unfold bind, advance, modify, ret. fold (fwd (zlen (encode_rune b)) c). reflexivity. }
    erewrite IH; [|exact (at_fwd H)|exact HF'|exact Hh|exact Hp|cbn in Hn; lia]. rewrite fwd_fwd, zlen_cons, encode_cons, zlen_app. replace (k + 1 + zlen l) with (k + (1 + zlen l)) by lia. reflexivity.
Qed.
(** the whole declaration; [c] is after the opening parenthesis *)
Lemma declaration_ok hs d c s : at_ c (encode (declaration_text d) ++ s) -> declared d ->
  exists qs ss es, (0 <=? qs) = d_quoted d /\
  while (tagEnd_step (c_pos c) hs) (mkhdecl [] [] None (-1) (-1) (-1)) c =
    Ok (mkhdecl (encode (d_tag d)) (encode (match d_syntax d with Some x => x | None => [] end)) (option_map flag_list (d_flags d)) qs ss es,
        c_pos c + zlen (encode (declaration_text d))) (fwd (zlen (encode (declaration_text d))) c).
Proof.
  intros H ((t0 & t1 & Et & _) & HT & HS & HF). destruct d as [q tag sy fl]. unfold declaration_text in *. cbn [d_quoted d_tag d_syntax d_flags] in *.
  fold (opt_part ":"%ch sy) in *. fold (opt_part "/"%ch fl) in *.
  assert (NT : tag <> []) by (rewrite Et; discriminate).
  pose proof (loop_fuel_enough H) as HL. unfold while. pose proof (at_pos H) as P0.
  destruct q.
  - set (dt := (""""%ch :: tag ++ [""""%ch]) ++ opt_part ":"%ch sy ++ opt_part "/"%ch fl ++ [")"%ch]) in *.
    assert (Z1 : zlen (encode dt) = 1 + zlen (encode tag) + 1 + zlen (encode (opt_part ":"%ch sy)) + zlen (encode (opt_part "/"%ch fl)) + 1).
    { unfold dt. rewrite !encode_app, encode_cons, !encode_app, !zlen_app. change (zlen (encode_rune """"%ch)) with 1. change (zlen (encode [""""%ch])) with 1. change (zlen (encode [")"%ch])) with 1. lia. }
    assert (Z2 : (3 + List.length tag + List.length (opt_part ":"%ch sy) + List.length (opt_part "/"%ch fl) <= List.length (encode dt))%nat).
    { pose proof (encode_length dt) as L. unfold dt at 1 in L. rewrite !app_length in L. cbn [List.length] in L. rewrite !app_length in L. cbn [List.length] in L. lia. }
    assert (H0 : at_ c (""""%ch :: encode tag ++ """"%ch :: encode (opt_part ":"%ch sy) ++ encode (opt_part "/"%ch fl) ++ ")"%ch :: s)).
    { unfold dt in H. rewrite !encode_app, encode_cons, !encode_app in H. rewrite <- !app_assoc in H. exact H. }
    pose proof (at_fwd1 H0) as H1. pose proof (at_fwd H1) as H2. pose proof (at_fwd1 H2) as H3.
    set (d1 := mkhdecl (encode tag) [] None (c_pos c + 1) (-1) (-1)).
    assert (NE : encode tag <> []) by (intros X; pose proof (encode_length tag) as L; rewrite X in L; destruct tag; [congruence|cbn in L; lia]).
    assert (LE : 1 <= zlen (encode tag)) by (destruct (encode tag); [congruence|rewrite zlen_cons; pose proof (zlen_nonneg s0); lia]).
    assert (E1 : tagEnd_step (c_pos c) hs (mkhdecl [] [] None (-1) (-1) (-1)) c = Ok (inl d1) (fwd 1 (fwd (zlen (encode tag)) (fwd 1 c)))).
    { unfold tagEnd_step. rewrite (bind_ok _ (@peek_ascii c _ _ H0 ltac:(lia))). change ((""""%ch =? 0) || (""""%ch =? 10)) with false. change (""""%ch =? ")"%ch) with false. change (""""%ch =? ":"%ch) with false. change (""""%ch =? "/"%ch) with false. change (""""%ch =? """"%ch) with true. cbv iota. cbn [h_tag].
      unfold bind at 1, advance at 1, modify at 1. fold (fwd 1 c). unfold bind at 1, getPos at 1, ask at 1.
      unfold skip_while, while. unfold bind at 1.
      erewrite (@skip_while_runes _ tag _ 0 (fwd 1 c)); [|exact H1| |apply head_ascii; lia|reflexivity|].
      - change ((""""%ch =? 0) || (""""%ch =? 10)) with false. cbv iota. unfold bind at 1, getPos at 1, ask at 1. cbn [fwd with_pos c_pos].
        destruct (Z.eqb_spec (c_pos c + 1) (c_pos c + 1 + zlen (encode tag))); [lia|].
        fold (fwd 1 c). fold (fwd (zlen (encode tag)) (fwd 1 c)).
        rewrite (bind_ok _ (@at_from (fwd 1 c) _ _ (c_pos c + 1) H1 eq_refl)). reflexivity.
      - revert HT. apply Forall_impl. intros x (X1 & X2 & X3). split; [exact X1|]. destruct X1 as (_ & _ & X1). lia.
      - pose proof (loop_fuel_enough H1) as L1. pose proof (encode_length tag). lia. }
    destruct (@syntax_part hs (c_pos c) d1 _ s tag sy fl H3) as (k & ss & es & Hk & E); auto.
    + unfold get_tag, d1. cbn [h_tag]. destruct (encode tag) eqn:EE; [congruence|reflexivity].
    + exists (c_pos c + 1), ss, es. split; [lia|].
      replace (loop_fuel c) with (S (k + (loop_fuel c - 1 - k)))%nat by lia.
      rewrite (loop_inl _ E1), E. unfold d1. cbn [h_quoteStart]. rewrite !fwd_fwd, Z1. unfold fwd. cbn [with_pos c_pos].
      f_equal; first [reflexivity|lia|f_equal; lia].
  - rewrite !encode_app in H. change (encode [")"%ch]) with [")"%ch] in H. rewrite <- !app_assoc in H. cbn [app] in H. pose proof (at_fwd H) as H1.
    destruct (@syntax_part hs (c_pos c) (mkhdecl [] [] None (-1) (-1) (-1)) (fwd (zlen (encode tag)) c) s tag sy fl H1) as (k & ss & es & Hk & E); auto.
    + unfold get_tag. cbn [h_tag]. apply (@at_from c _ _ _ H eq_refl).
    + exists (-1), ss, es. split; [reflexivity|].
      replace (loop_fuel c) with (List.length tag + (k + (loop_fuel c - List.length tag - k)))%nat.
      2: { pose proof (encode_length (tag ++ opt_part ":"%ch sy ++ opt_part "/"%ch fl ++ [")"%ch])) as L. rewrite !app_length in L. cbn [List.length] in L. lia. }
      erewrite plain_loop; [|exact H|exact HT]. rewrite E. cbn [h_quoteStart]. rewrite fwd_fwd, !encode_app, !zlen_app. change (zlen (encode [")"%ch])) with 1. cbn [fwd with_pos c_pos].
      f_equal; first [reflexivity|lia|f_equal; lia].
Qed.

(** ** The rest of the line *)
Lemma hash_true_loop csp rs : forall n c s, at_ c (encode rs ++ 10 :: s) -> Forall (fun r => rune_ok r /\ r <> 10) rs -> (List.length rs < n)%nat ->
  loop n (skipWhite_step true) ("#"%ch, csp) c = Ok (10, c_pos c + zlen (encode rs)) (fwd (zlen (encode rs)) c).
Proof.
  induction rs as [|r rs IH]; intros n c s H HF Hn; (destruct n as [|n]; [cbn in Hn; lia|]).
  - change (encode []) with (@nil Z) in *. cbn [app] in H. cbn [loop]. unfold bind at 1. unfold skipWhite_step at 1.
    rewrite (bind_ok _ (at_next H (@head_ascii 10 s ltac:(lia)))). change (10 =? 0) with false. change (10 =? 10) with true. change ("#"%ch =? "*"%ch) with false. cbv iota.
    unfold bind, setPos, modify, ret. change (zlen (@nil Z)) with 0. rewrite fwd_0, Z.add_0_r. destruct c; reflexivity.
  - inversion HF as [|? ? (R1 & R2) HF']; subst. rewrite encode_cons, <- app_assoc in H. erewrite loop_inl.
    2: { unfold skipWhite_step. rewrite (bind_ok _ (at_next_rune H R1)). destruct R1 as (_ & _ & R0).
      destruct (Z.eqb_spec r 0); [congruence|]. destruct (Z.eqb_spec r 10); [congruence|]. instantiate (1 := fwd (zlen (encode_rune r)) c). instantiate (1 := ("#"%ch, csp)).
      destruct (r =? "#"%ch); [reflexivity|]. destruct (r =? "/"%ch); [reflexivity|]. destruct (r =? "*"%ch); [reflexivity|].
      destruct (_ || _)%bool; reflexivity. }
    rewrite (IH n _ s (at_fwd H) HF' ltac:(cbn in Hn; lia)), fwd_fwd, encode_cons, zlen_app. cbn [fwd with_pos c_pos]. f_equal. f_equal. lia.
Qed.
Lemma hash_true c b s : at_ c ("#"%ch :: encode b ++ 10 :: s) -> Forall (fun r => rune_ok r /\ r <> 10) b ->
  skipWhite true c = Ok (10, c_pos c + 1 + zlen (encode b)) (fwd (1 + zlen (encode b)) c).
Proof.
  intros H HF. unfold skipWhite, while. pose proof (loop_fuel_enough (a := "#"%ch :: encode b) H) as L. cbn [List.length] in L. destruct (loop_fuel c) as [|n]; [lia|].
  erewrite loop_inl.
  2: { unfold skipWhite_step. rewrite (bind_ok _ (at_next H (@head_ascii "#"%ch _ ltac:(lia)))). change ("#"%ch =? 0) with false. change ("#"%ch =? 10) with false. change ("#"%ch =? "#"%ch) with true. change (0 =? 0) with true. cbv iota. unfold ret. reflexivity. }
  rewrite (@hash_true_loop (c_pos c) b n _ s (at_fwd1 H) HF) by (pose proof (encode_length b); lia). rewrite fwd_fwd. reflexivity.
Qed.
Section StartOfText.
Variable hs : Z.
Local Notation step := (startOfText_step hs).
Definition other_text (r : Z) : Prop := rune_ok r /\ r <> 10 /\ r <> "#"%ch /\ r <> "/"%ch.
Lemma text_loop a : forall n c s st r w, at_ c (encode a ++ s) -> Forall other_text a -> head_rune (encode a ++ s) = Some st -> head_rune s = Some (r, w) ->
  loop (List.length a + n) step st c = loop n step (r, w) (fwd (zlen (encode a)) c).
Proof.
  induction a as [|x a IH]; intros n c s st r w H HF Hst Hs.
  - change (encode []) with (@nil Z) in *. cbn [app] in *. assert (st = (r, w)) as -> by congruence. change (zlen (@nil Z)) with 0. rewrite fwd_0. reflexivity.
  - inversion HF as [|? ? (R1 & R2 & R3 & R4) HF']; subst. rewrite encode_cons, <- app_assoc in H, Hst.
    assert (st = (x, zlen (encode_rune x))) as ->. { destruct R1 as (A1 & A2 & A3). rewrite head_encode in Hst by auto. congruence. }
    pose proof (at_fwd H) as H1.
    assert (HH : exists st', head_rune (encode a ++ s) = Some st').
    { destruct a as [|y a]; [exists (r, w); exact Hs|]. exists (y, zlen (encode_rune y)). apply head_runes; [discriminate|]. revert HF'. apply Forall_impl. unfold other_text. tauto. }
    destruct HH as (st' & HH). change (List.length (x :: a) + n)%nat with (S (List.length a + n)). erewrite loop_inl.
    2: { unfold startOfText_step. assert (R0 : x <> 0) by (destruct R1 as (_ & _ & R0); exact R0).
         repeat match goal with |- context [x =? ?y] => destruct (Z.eqb_spec x y); [congruence|] end.
         unfold bind at 1, advance at 1, modify at 1. fold (fwd (zlen (encode_rune x)) c). rewrite (bind_ok _ (at_peek H1 HH)). destruct st' as [? ?]. reflexivity. }
    destruct st' as [y wy]. rewrite (IH n _ s (y, wy) r w H1 HF' HH Hs), fwd_fwd, encode_cons, zlen_app. reflexivity.
Qed.
(** where the content begins *)
Definition content_at (c : ctx) (tail : list Z) : ctx :=
  if 0 <=? c_nls c then with_nls (-1) (with_pos (c_nls c) c) else fwd (zlen (encode tail) + 1) c.
Lemma start_of_text c tail s : at_ c (encode tail ++ 10 :: s) -> line_rest tail ->
  (st <- peek ;; while step st) c = Ok (10, c_pos (content_at c tail)) (content_at c tail).
Proof.
  intros H HR.
  assert (N : forall c1 n, c_text c1 = c_text c -> c_nls c1 = c_nls c -> c1 = fwd (zlen (encode tail)) c -> loop (S n) step (10, 1) c1 = Ok (10, c_pos (content_at c tail)) (content_at c tail)).
  { intros c1 n E1 E2 ->. cbn [loop]. unfold bind at 1. unfold startOfText_step at 1. change (10 =? 0) with false. change (10 =? "#"%ch) with false. change (10 =? "/"%ch) with false. change (10 =? 10) with true. cbv iota.
    unfold bind at 1, modify at 1. unfold content_at. change (c_nls (fwd (zlen (encode tail)) c)) with (c_nls c). destruct (0 <=? c_nls c).
    - reflexivity.
    - unfold bind, getPos, ask, ret. unfold fwd. cbn [with_pos c_pos]. replace (c_pos c + zlen (encode tail) + 1) with (c_pos c + (zlen (encode tail) + 1)) by lia. reflexivity. }
  destruct HR as [a HA|a b HA HB].
  - assert (HH : exists st, head_rune (encode a ++ 10 :: s) = Some st).
    { destruct a as [|y a]; [exists (10, 1); reflexivity|]. exists (y, zlen (encode_rune y)). apply head_runes; [discriminate|]. revert HA. apply Forall_impl. tauto. }
    destruct HH as (st & HH). rewrite (bind_ok _ (at_peek H HH)). unfold while.
    pose proof (loop_fuel_enough H) as L. pose proof (encode_length a).
    replace (loop_fuel c) with (List.length a + S (loop_fuel c - List.length a - 1))%nat by lia.
    rewrite (@text_loop a _ c _ st 10 1 H HA HH (@head_ascii 10 s ltac:(lia))). apply N; reflexivity.
  - rewrite encode_app, encode_cons, <- app_assoc in H. change (encode_rune "#"%ch) with ["#"%ch] in H. cbn [app] in H.
    assert (HH : exists st, head_rune (encode a ++ "#"%ch :: encode b ++ 10 :: s) = Some st).
    { destruct a as [|y a]; [exists ("#"%ch, 1); reflexivity|]. exists (y, zlen (encode_rune y)). apply head_runes; [discriminate|]. revert HA. apply Forall_impl. tauto. }
    destruct HH as (st & HH). rewrite (bind_ok _ (at_peek H HH)). unfold while.
    pose proof (loop_fuel_enough H) as L. pose proof (encode_length a).
    assert (L2 : (List.length a + 2 <= loop_fuel c)%nat).
    { assert (H' : at_ c ((encode a ++ ["#"%ch]) ++ encode b ++ 10 :: s)) by (rewrite <- app_assoc; exact H). pose proof (loop_fuel_enough H') as L'. rewrite app_length in L'. cbn [List.length] in L'. lia. }
    replace (loop_fuel c) with (List.length a + S (S (loop_fuel c - List.length a - 2)))%nat by lia.
    rewrite (@text_loop a _ c _ st "#"%ch 1 H HA HH (@head_ascii "#"%ch _ ltac:(lia))). pose proof (at_fwd H) as H1.
    erewrite loop_inl.
    2: { unfold startOfText_step. change ("#"%ch =? 0) with false. change ("#"%ch =? "#"%ch) with true. cbv iota. rewrite (bind_ok _ (hash_true H1 HB)). reflexivity. }
    apply N; [reflexivity|reflexivity|]. rewrite fwd_fwd, encode_app, encode_cons, !zlen_app. change (zlen (encode_rune "#"%ch)) with 1. reflexivity.
Qed.
End StartOfText.

(** ** The escapes and the margin *)
Section Says.
Variables (indent : nat) (flags : list Z) (q : bool) (end_ : Z) (segs : option (list expr)) (rr : list Z) (tl : str).
Hypothesis Hsegs : segs <> None -> q = true.
Hypothesis Hletters : Forall (fun r => In r (lit "trnsuL$")) flags.
Hypothesis Hrr : Forall rune_ok rr.
Hypothesis Hs : exists r w, head_rune tl = Some (r, w) /\ ~ tab_or_space r.
Lemma flag_b r : existsb (Z.eqb r) (flag_list flags) = true <-> is_flag flags r.
Proof.
  rewrite existsb_exists. unfold flag_list, is_flag. split.
  - intros (x & HI & E). apply in_map_iff in HI. destruct HI as (f & E2 & HI). apply Z.eqb_eq in E. rewrite <- E in E2. clear E x.
    destruct (Z.eqb_spec f "L"%ch) as [E|N]; [right; split; [symmetry; exact E2|rewrite <- E; exact HI]|left]. rewrite <- E2. auto.
  - intros [(HI & N)|(-> & HI)]; (exists r || exists 10); (split; [apply in_map_iff|apply Z.eqb_refl]).
    + exists r. destruct (Z.eqb_spec r "L"%ch); [congruence|]. auto.
    + exists "L"%ch. auto.
Qed.
Lemma flag_range r : is_flag flags r -> 0 < r < 128.
Proof.
  intros [(HI & _)|(-> & _)]; [|lia]. rewrite Forall_forall in Hletters. apply Hletters in HI. cbn in HI. repeat (destruct HI as [<- | HI]; [lia|]). tauto.
Qed.
Lemma flag_test r : is_flag flags r <-> ((r <? 128) && existsb (Z.eqb r) (flag_list flags) = true).
Proof. rewrite andb_true_iff, flag_b. split; [|tauto]. intros H. split; [pose proof (flag_range H); lia|exact H]. Qed.

Lemma strip_loop a : forall n m c s, at_ c (a ++ s) -> Forall tab_or_space a -> (List.length a < n)%nat -> forall start,
  loop n (fun n => if 0 <? n then
      '(c, s) <- peek ;;
      if (c =? 9) || (c =? " "%ch) then advance s ;; ret (inl (n - 1)) else setPos start ;; ret (inr tt)
    else ret (inr tt)) (zlen a + Z.of_nat m) c =
  loop (n - List.length a) (fun n => if 0 <? n then
      '(c, s) <- peek ;;
      if (c =? 9) || (c =? " "%ch) then advance s ;; ret (inl (n - 1)) else setPos start ;; ret (inr tt)
    else ret (inr tt)) (Z.of_nat m) (fwd (zlen a) c).
Proof.
  induction a as [|x a IH]; intros n m c s H HF Hn start.
  - change (zlen (@nil Z)) with 0. rewrite fwd_0, Nat.sub_0_r. reflexivity.
  - destruct n as [|n]; [cbn in Hn; lia|]. inversion HF as [|? ? Hx HF']; subst. cbn [app] in H. assert (A : 0 <= x < 128) by (unfold tab_or_space in Hx; lia).
    erewrite loop_inl.
    2: { rewrite zlen_cons. replace (0 <? 1 + zlen a + Z.of_nat m) with true by (pose proof (zlen_nonneg a); lia). rewrite (bind_ok _ (peek_ascii H A)).
         replace ((x =? 9) || (x =? " "%ch))%bool with true by (unfold tab_or_space in Hx; change " "%ch with 32; lia).
         unfold bind, advance, modify, ret. fold (fwd 1 c). reflexivity. }
    replace (1 + zlen a + Z.of_nat m - 1) with (zlen a + Z.of_nat m) by lia.
    rewrite (IH n m _ s (at_fwd1 H) HF' ltac:(cbn in Hn; lia) start), fwd_fwd, zlen_cons. reflexivity.
Qed.
Lemma strip_yes c a s : at_ c (a ++ s) -> List.length a = indent -> Forall tab_or_space a -> stripIndent (Z.of_nat indent) c = Ok tt (fwd (zlen a) c).
Proof.
  intros H HL HF. unfold stripIndent. unfold bind at 1, getPos, ask. unfold while. pose proof (loop_fuel_enough H) as L.
  replace (Z.of_nat indent) with (zlen a + Z.of_nat 0) by (unfold zlen; lia). rewrite (strip_loop 0 H HF L).
  destruct (loop_fuel c - List.length a)%nat eqn:E; [lia|]. reflexivity.
Qed.
Lemma split_tabs n l : exists a b, l = a ++ b /\ Forall tab_or_space a /\ (List.length a = n \/ ((List.length a < n)%nat /\ (b = [] \/ exists r b', b = r :: b' /\ ~ tab_or_space r))).
Proof.
  revert n. induction l as [|r l IH]; intros n.
  - exists [], []. split; [reflexivity|]. split; [constructor|]. destruct n; [left; reflexivity|right]. cbn. split; [lia|auto].
  - destruct n as [|n]; [exists [], (r :: l); split; [reflexivity|split; [constructor|left; reflexivity]]|].
    destruct (Z.eqb_spec r 9) as [E|E]; [|destruct (Z.eqb_spec r 32) as [E'|E']].
    1, 2: destruct (IH n) as (a & b & -> & HF & HC); exists (r :: a), b; (split; [reflexivity|]); (split; [constructor; [unfold tab_or_space; auto|exact HF]|]); cbn [List.length]; (destruct HC as [HC|(HC & HC')]; [left; lia|right; split; [lia|exact HC']]).
    exists [], (r :: l). split; [reflexivity|]. split; [constructor|]. right. cbn. split; [lia|]. right. exists r, l. split; [reflexivity|]. unfold tab_or_space. tauto.
Qed.
Lemma tab_ascii w : Forall tab_or_space w -> encode w = w.
Proof. intros H. apply encode_asciis. revert H. apply Forall_impl. unfold tab_or_space. lia. Qed.
Lemma strip_no c src s : at_ c (encode src ++ s) -> Forall rune_ok src -> ~ can_strip indent src -> (exists r w, head_rune s = Some (r, w) /\ ~ tab_or_space r) \/ (exists s', src = s' ++ [10]) ->
  stripIndent (Z.of_nat indent) c = Ok tt c.
Proof.
  intros H HO HN HS. destruct (split_tabs indent src) as (a & b & -> & HF & [HL|(HL & HB)]).
  { destruct HN. exists a, b. auto. }
  rewrite encode_app, (tab_ascii HF), <- app_assoc in H. unfold stripIndent. unfold bind at 1, getPos, ask. unfold while. pose proof (loop_fuel_enough H) as L.
  replace (Z.of_nat indent) with (zlen a + Z.of_nat (indent - List.length a)) by (unfold zlen; lia). rewrite (strip_loop _ H HF L).
  destruct (loop_fuel c - List.length a)%nat eqn:E; [lia|]. cbn [loop]. unfold bind at 1. replace (0 <? Z.of_nat (indent - List.length a)) with true by lia.
  assert (HH : exists r w, head_rune (encode b ++ s) = Some (r, w) /\ ~ tab_or_space r).
  { apply Forall_app in HO. destruct HO as [_ HO]. destruct HB as [-> | (r & b' & -> & Hr)].
    - destruct HS as [HS|(s' & HS)]; [exact HS|]. rewrite app_nil_r in HS. exfalso. rewrite HS in HF. apply Forall_app in HF. destruct HF as [_ HF]. inversion HF; subst. unfold tab_or_space in *. lia.
    - exists r, (zlen (encode_rune r)). split; [apply head_runes; [discriminate|exact HO]|exact Hr]. }
  destruct HH as (r & w & HH & Hr). rewrite (bind_ok _ (at_peek (at_fwd H) HH)). replace ((r =? 9) || (r =? " "%ch))%bool with false by (unfold tab_or_space in Hr; change " "%ch with 32; lia).
  unfold bind, setPos, modify, ret. destruct c; reflexivity.
Qed.

Definition applying (bol : bool) (bld : str) (r : recT) : M (str * option (list expr)) :=
  (if bol then stripIndent (Z.of_nat indent) else ret tt) ;;
  '(c', start') <- next ;; r _ (FApply end_ (Z.of_nat indent) (flag_list flags) bld c' start' segs).
Lemma app_next bld c x p c1 a c' : next c = Ok (x, p) c1 ->
  evals (fun r => apply_body r end_ (Z.of_nat indent) (flag_list flags) bld x p segs) c1 a c' -> evals (applying false bld) c a c'.
Proof. intros E H. unfold applying. eapply ev_step; [reflexivity|]. eapply ev_step; [exact E|]. apply ev_rec. exact H. Qed.
Lemma head_rest : exists x w, head_rune (encode rr ++ tl) = Some (x, w).
Proof.
  destruct rr as [|r l]; [destruct Hs as (r & w & E & _); exists r, w; exact E|]. exists r, (zlen (encode_rune r)). apply head_runes; [discriminate|exact Hrr].
Qed.
Lemma says_runes bol src out : says indent flags q bol src out -> Forall rune_ok src.
Proof.
  induction 1; auto.
  - apply Forall_app. split; [|assumption]. revert H0. apply Forall_impl. intros r. unfold tab_or_space. intros. apply rune_ok_ascii. lia.
  - constructor; [apply rune_ok_ascii; lia|assumption].
  - constructor; [apply rune_ok_ascii; lia|constructor].
  - constructor; [apply rune_ok_ascii; lia|constructor; assumption].
  - constructor; [apply rune_ok_ascii; lia|constructor; [apply rune_ok_ascii; eapply flag_range; eassumption|assumption]].
  - constructor; [apply rune_ok_ascii; lia|constructor; [apply rune_ok_ascii; lia|assumption]].
  - constructor; [apply rune_ok_ascii; lia|constructor; [apply rune_ok_ascii; lia|]]. apply Forall_app. split; [|assumption].
    pose proof (hex_list H0) as HX. revert HX. apply Forall_impl. intros x (X1 & X2). apply rune_ok_ascii. destruct (Z.eq_dec x 0) as [-> | ?]; [discriminate|lia].
  - constructor; [apply rune_ok_ascii; lia|constructor; [apply rune_ok_ascii; lia|constructor; [apply rune_ok_ascii; lia|]]]. apply Forall_app. split; [|constructor; [apply rune_ok_ascii; lia|assumption]].
    pose proof (hex_list H0) as HX. revert HX. apply Forall_impl. intros x (X1 & X2). apply rune_ok_ascii. destruct (Z.eq_dec x 0) as [-> | ?]; [discriminate|lia].
Qed.
Definition tail_ok (src : list Z) : Prop := (exists r l, rr = r :: l /\ ~ tab_or_space r) \/ src = [] \/ exists s', src = s' ++ [10].
Lemma tail_app a b : tail_ok (a ++ b) -> tail_ok b.
Proof.
  intros [H|[H|(s' & H)]]; [left; exact H| |].
  - destruct a; [right; left; exact H|discriminate].
  - destruct b as [|y b] using rev_ind; [right; left; reflexivity|]. rewrite app_assoc in H. apply app_inj_tail in H. destruct H as (_ & ->). right. right. exists b. reflexivity.
Qed.
Lemma tail_cons r b : tail_ok (r :: b) -> tail_ok b.
Proof. apply (@tail_app [r]). Qed.
Lemma at_end_applies bld c x w : c_pos c >= end_ -> next c = Ok (x, c_pos c) (fwd w c) -> evals (applying false bld) c (bld, segs) (with_pos (c_pos c + w) c).
Proof.
  intros HE E. eapply app_next; [exact E|]. apply ev_all. intros r. unfold apply_body. replace (c_pos c <? end_) with false by lia. rewrite andb_false_r. reflexivity.
Qed.
Lemma says_ok bol src out : says indent flags q bol src out -> forall bld c, at_ c (encode src ++ encode rr ++ tl) -> end_ = c_pos c + zlen (encode src) -> tail_ok src ->
  exists p, evals (applying bol bld) c (bld ++ encode out, segs) (with_pos p c).
Proof.
  induction 1 as [a b out HL HF HS IH|src out HN HS IH| |src out HS IH|r src out R1 R2 R3 R4 HS IH| |r src out R1 R2 R3 HS IH|r x src out R1 R2 HS IH|src out R1 HS IH|ds cs src out R1 HX HL HV HS IH|ds cs src out R1 HX HL HV HS IH];
    intros bld c H HE HT.
  - rewrite encode_app, (tab_ascii HF), <- app_assoc in H. destruct (IH bld (fwd (zlen a) c) (at_fwd H)) as (p & E).
    + rewrite HE, encode_app, (tab_ascii HF), zlen_app. cbn [fwd with_pos c_pos]. lia.
    + eapply tail_app. exact HT.
    + exists p. unfold applying. eapply ev_step; [exact (strip_yes H HL HF)|]. eapply ev_from; [|exact E]. reflexivity.
  - destruct src as [|r0 src0].
    + inversion HS; subst. change (encode []) with (@nil Z) in *. cbn [app] in H. rewrite app_nil_r. change (zlen (@nil Z)) with 0 in HE.
      destruct (split_tabs indent rr) as (a & b & Er & HF & HC). pose proof Hrr as HO. rewrite Er in H, HO. apply Forall_app in HO. destruct HO as [_ HO].
      rewrite encode_app, (tab_ascii HF), <- app_assoc in H. 
      assert (HB : exists x w, head_rune (encode b ++ tl) = Some (x, w)).
      { destruct b as [|y b']; [destruct Hs as (x & w & E & _); exists x, w; exact E|]. exists y, (zlen (encode_rune y)). apply head_runes; [discriminate|exact HO]. }
      destruct HC as [HC|(HC & HC')].
      * destruct HB as (x & w & HB). pose proof (at_fwd H) as H1. exists (c_pos (fwd (zlen a) c) + w). unfold applying. eapply ev_step; [exact (strip_yes H HC HF)|].
        eapply ev_from; [|apply (@at_end_applies bld (fwd (zlen a) c) x w)]; [reflexivity| |exact (at_next H1 HB)]. cbn [fwd with_pos c_pos]. pose proof (zlen_nonneg a). lia.
      * assert (HX : exists x w, head_rune (encode (a ++ b) ++ tl) = Some (x, w)) by (rewrite <- Er; exact head_rest). destruct HX as (x & w & HX).
        assert (H2 : at_ c (encode (a ++ b) ++ tl)) by (rewrite encode_app, (tab_ascii HF), <- app_assoc; exact H).
        exists (c_pos c + w). unfold applying. eapply ev_step.
        -- apply (@strip_no c (a ++ b) tl H2); [rewrite <- Er; exact Hrr| |left; exact Hs]. intros (a' & b' & E1 & E2 & E3).
           destruct HC' as [-> | (r & b'' & -> & Hr)].
           ++ rewrite app_nil_r in E1. subst a. rewrite app_length in HC. lia.
           ++ assert (List.length a < List.length a')%nat by lia. assert (HI : nth_error (a ++ r :: b'') (List.length a) = Some r) by (rewrite nth_error_app2, Nat.sub_diag by lia; reflexivity).
              rewrite E1, nth_error_app1 in HI by lia. apply nth_error_In in HI. rewrite Forall_forall in E3. apply E3 in HI. contradiction.
        -- eapply ev_from; [|apply (@at_end_applies bld c x w)]; [reflexivity|lia|exact (at_next H2 HX)].
    + destruct (IH bld c H HE HT) as (p & E). exists p. unfold applying. eapply ev_step; [|exact (@ev_from _ _ (applying false bld) _ _ _ _ (fun _ => eq_refl) E)].
      eapply strip_no; [exact H|eapply says_runes; exact HS|exact HN|].
      destruct HT as [(r & l & Er & Hr)|[HT|HT]]; [|discriminate|right; exact HT]. left. exists r, (zlen (encode_rune r)). split; [|exact Hr]. rewrite Er. apply head_runes; [discriminate|rewrite <- Er; exact Hrr].
  - change (encode []) with (@nil Z) in *. cbn [app] in H. rewrite app_nil_r. change (zlen (@nil Z)) with 0 in HE. destruct head_rest as (x & w & HX). exists (c_pos c + w).
    apply (@at_end_applies bld c x w); [lia|exact (at_next H HX)].
  - apply at_encode_cons in H. assert (R : rune_ok 10) by (apply rune_ok_ascii; lia). rewrite encode_cons, zlen_app in HE. change (zlen (encode_rune 10)) with 1 in HE. pose proof (zlen_nonneg (encode src)).
    destruct (IH (bld ++ [10]) (fwd 1 c)) as (p & E); [exact (at_fwd H)|cbn [fwd with_pos c_pos]; lia|eapply tail_cons; exact HT|].
    exists p. rewrite encode_cons. change (encode_rune 10) with [10]. rewrite app_assoc. eapply app_next; [exact (at_next_rune H R)|]. eapply ev_from; [|exact E]. intros r. unfold apply_body.
    change (negb (10 =? 0)) with true. replace (c_pos c <? end_) with true by lia. cbn [andb]. change (negb (10 =? "\"%ch)) with true. cbv iota. change (10 =? "$"%ch) with false. cbv iota. reflexivity.
  - apply at_encode_cons in H. rewrite encode_cons, zlen_app in HE. pose proof (zlen_nonneg (encode src)). pose proof (@encode_pos r).
    destruct (IH (bld ++ encode_rune r) (fwd (zlen (encode_rune r)) c)) as (p & E); [exact (at_fwd H)|cbn [fwd with_pos c_pos]; lia|eapply tail_cons; exact HT|].
    exists p. rewrite encode_cons, app_assoc. eapply app_next; [exact (at_next_rune H R1)|]. assert (R0 : r <> 0) by (destruct R1 as (_ & _ & R0); exact R0). eapply ev_from; [|exact E]. intros rc. unfold apply_body.
    replace (negb (r =? 0) && (c_pos c <? end_))%bool with true by lia. replace (negb (r =? "\"%ch)) with true by lia. replace (r =? 10) with false by lia.
    destruct (Z.eqb_spec r "$"%ch) as [E0|_]; [|reflexivity]. case_eq segs; [intros ss Ess|intros Ess; unfold applying; rewrite Ess; reflexivity]. exfalso. apply R4; [apply Hsegs; congruence|exact E0].
  - change (encode ["\"%ch]) with ["\"%ch] in *. change (zlen ["\"%ch]) with 1 in HE. cbn [app] in H. destruct head_rest as (x & w & HX). exists (c_pos c + 1 + w).
    eapply app_next; [exact (at_next H (@head_ascii "\"%ch _ ltac:(lia)))|]. apply ev_all. intros r. unfold apply_body. change (negb ("\"%ch =? 0)) with true. replace (c_pos c <? end_) with true by lia. cbn [andb]. change (negb ("\"%ch =? "\"%ch)) with false. cbv iota.
    rewrite (bind_ok _ (at_next (at_fwd1 H) HX)). cbn [fwd with_pos c_pos]. replace (end_ <=? c_pos c + 1) with true by lia. reflexivity.
  - rewrite encode_cons, (@encode_ascii "\"%ch) in H, HE by lia. cbn [app] in H, HE. rewrite zlen_cons in HE. pose proof (at_fwd1 H) as H1. apply at_encode_cons in H1. rewrite encode_cons, zlen_app in HE. pose proof (zlen_nonneg (encode src)). pose proof (@encode_pos r).
    assert (R0 : r <> 0) by (destruct R1 as (_ & _ & R0); exact R0).
    destruct (IH ((bld ++ ["\"%ch]) ++ encode_rune r) (fwd (zlen (encode_rune r)) (fwd 1 c))) as (p & E); [exact (at_fwd H1)|cbn [fwd with_pos c_pos]; lia|do 2 eapply tail_cons; exact HT|].
    exists p. rewrite !encode_cons, (@encode_ascii "\"%ch) by lia. rewrite !app_assoc. eapply app_next; [exact (at_next H (@head_ascii "\"%ch _ ltac:(lia)))|]. eapply ev_from; [|exact E]. intros rc. unfold apply_body.
    change (negb ("\"%ch =? 0)) with true. replace (c_pos c <? end_) with true by lia. cbn [andb]. change (negb ("\"%ch =? "\"%ch)) with false. cbv iota.
    rewrite (bind_ok _ (at_next_rune H1 R1)). cbn [fwd with_pos c_pos]. replace (end_ <=? c_pos c + 1) with false by lia.
    rewrite flag_test in R2. destruct ((r <? 128) && _)%bool; [congruence|]. cbn [negb].
    destruct (Z.eqb_spec r "$"%ch) as [E0|_]; [|reflexivity]. case_eq segs; [intros ss Ess|intros Ess; unfold applying; rewrite Ess; reflexivity]. exfalso. apply R3; [apply Hsegs; congruence|exact E0].
  - pose proof (flag_range R1) as RR. rewrite !encode_cons, (@encode_ascii "\"%ch), (@encode_ascii r) in H, HE by lia. cbn [app] in H, HE. rewrite !zlen_cons in HE. pose proof (at_fwd1 H) as H1. pose proof (at_fwd1 H1) as H2. rewrite fwd_fwd in H2. pose proof (zlen_nonneg (encode src)).
    assert (RX : encode_rune x = [x]). { apply encode_ascii. destruct R2 as [(_ & ->)|[(_ & ->)|[(_ & ->)|[(_ & ->)|(_ & ->)]]]]; lia. }
    destruct (IH (bld ++ [x]) (fwd 2 c)) as (p & E); [exact H2|cbn [fwd with_pos c_pos]; lia|do 2 eapply tail_cons; exact HT|].
    exists p. rewrite encode_cons, RX, app_assoc. eapply app_next; [exact (at_next H (@head_ascii "\"%ch _ ltac:(lia)))|]. eapply ev_from; [|exact E]. intros rc. unfold apply_body.
    change (negb ("\"%ch =? 0)) with true. replace (c_pos c <? end_) with true by lia. cbn [andb]. change (negb ("\"%ch =? "\"%ch)) with false. cbv iota.
    rewrite (bind_ok _ (at_next H1 (@head_ascii r _ ltac:(lia)))). rewrite fwd_fwd. cbn [fwd with_pos c_pos]. replace (end_ <=? c_pos c + 1) with false by lia.
    rewrite flag_test in R1. rewrite R1. cbn [negb].
    destruct R2 as [(-> & ->)|[(-> & ->)|[(-> & ->)|[(-> & ->)|(-> & ->)]]]]; reflexivity.
  - rewrite !encode_cons, (@encode_ascii "\"%ch), (@encode_ascii 10) in H, HE by lia. cbn [app] in H, HE. rewrite !zlen_cons in HE. pose proof (at_fwd1 H) as H1. pose proof (at_fwd1 H1) as H2. rewrite fwd_fwd in H2. pose proof (zlen_nonneg (encode src)).
    destruct (IH bld (fwd 2 c)) as (p & E); [exact H2|cbn [fwd with_pos c_pos]; lia|do 2 eapply tail_cons; exact HT|].
    exists p. eapply app_next; [exact (at_next H (@head_ascii "\"%ch _ ltac:(lia)))|]. eapply ev_from; [|exact E]. intros rc. unfold apply_body.
    change (negb ("\"%ch =? 0)) with true. replace (c_pos c <? end_) with true by lia. cbn [andb]. change (negb ("\"%ch =? "\"%ch)) with false. cbv iota.
    rewrite (bind_ok _ (at_next H1 (@head_ascii 10 _ ltac:(lia)))). rewrite fwd_fwd. cbn [fwd with_pos c_pos]. replace (end_ <=? c_pos c + 1) with false by lia.
    rewrite flag_test in R1. rewrite R1. cbn [negb]. change (10 =? "r"%ch) with false. change (10 =? "n"%ch) with false. change (10 =? "t"%ch) with false. change (10 =? "s"%ch) with false. change (10 =? "u"%ch) with false. change (10 =? 10) with true. cbv iota.
    unfold applying, bind. destruct (stripIndent _ _); reflexivity.
  - pose proof (hex_list HX) as HXL. assert (EA : encode cs = cs) by (apply encode_asciis; revert HXL; apply Forall_impl; tauto).
    assert (LC : zlen cs = 4) by (pose proof (Forall2_length HX); unfold zlen; lia).
    rewrite !encode_cons, encode_app, EA, (@encode_ascii "\"%ch), (@encode_ascii "u"%ch) in H, HE by lia. cbn [app] in H, HE. rewrite !zlen_cons, zlen_app in HE. rewrite <- app_assoc in H. pose proof (at_fwd1 H) as H1. pose proof (at_fwd1 H1) as H2. rewrite fwd_fwd in H2. pose proof (at_fwd H2) as H3. rewrite fwd_fwd in H3. pose proof (zlen_nonneg (encode src)).
    destruct (IH (bld ++ encode_rune (value 16 ds)) (fwd 6 c)) as (p & E); [rewrite LC in H3; exact H3|cbn [fwd with_pos c_pos]; lia|apply (@tail_app ("\"%ch :: "u"%ch :: cs)); exact HT|].
    exists p. rewrite encode_cons, app_assoc. eapply app_next; [exact (at_next H (@head_ascii "\"%ch _ ltac:(lia)))|]. eapply ev_from; [|exact E]. intros rc. unfold apply_body.
    change (negb ("\"%ch =? 0)) with true. replace (c_pos c <? end_) with true by lia. cbn [andb]. change (negb ("\"%ch =? "\"%ch)) with false. cbv iota.
    rewrite (bind_ok _ (at_next H1 (@head_ascii "u"%ch _ ltac:(lia)))). rewrite fwd_fwd. cbn [fwd with_pos c_pos]. replace (end_ <=? c_pos c + 1) with false by lia.
    rewrite flag_test in R1. rewrite R1. cbn [negb]. change ("u"%ch =? "r"%ch) with false. change ("u"%ch =? "n"%ch) with false. change ("u"%ch =? "t"%ch) with false. change ("u"%ch =? "s"%ch) with false. change ("u"%ch =? "u"%ch) with true. cbv iota.
    change (with_pos (c_pos c + (1 + 1)) c) with (fwd (1 + 1) c).
    rewrite (bind_ok _ (@appendUnicode_4 bld _ ds cs _ H2 HX HL)). rewrite fwd_fwd. reflexivity.
  - pose proof (hex_list HX) as HXL. assert (EA : encode cs = cs) by (apply encode_asciis; revert HXL; apply Forall_impl; tauto).
    rewrite !encode_cons, encode_app, encode_cons, EA, (@encode_ascii "\"%ch), (@encode_ascii "u"%ch), (@encode_ascii "{"%ch), (@encode_ascii "}"%ch) in H, HE by lia. cbn [app] in H, HE. rewrite !zlen_cons, zlen_app, zlen_cons in HE. rewrite <- app_assoc in H. cbn [app] in H. pose proof (at_fwd1 H) as H1. pose proof (at_fwd1 H1) as H2. rewrite fwd_fwd in H2.
    pose proof (at_fwd1 (at_fwd (at_fwd1 H2))) as H3. rewrite !fwd_fwd in H3. pose proof (zlen_nonneg (encode src)). pose proof (zlen_nonneg cs).
    destruct (IH (bld ++ encode_rune (value 16 ds)) (fwd (1 + 1 + (zlen cs + 2)) c)) as (p & E); [|cbn [fwd with_pos c_pos]; lia|apply (@tail_app ("\"%ch :: "u"%ch :: "{"%ch :: cs ++ ["}"%ch])); cbn [app]; rewrite <- app_assoc; exact HT|].
    { eapply at_state; [exact H3|reflexivity|cbn [fwd with_pos c_pos]; lia]. }
    exists p. rewrite encode_cons, app_assoc. eapply app_next; [exact (at_next H (@head_ascii "\"%ch _ ltac:(lia)))|]. eapply ev_from; [|exact E]. intros rc. unfold apply_body.
    change (negb ("\"%ch =? 0)) with true. replace (c_pos c <? end_) with true by lia. cbn [andb]. change (negb ("\"%ch =? "\"%ch)) with false. cbv iota.
    rewrite (bind_ok _ (at_next H1 (@head_ascii "u"%ch _ ltac:(lia)))). rewrite fwd_fwd. cbn [fwd with_pos c_pos]. replace (end_ <=? c_pos c + 1) with false by lia.
    rewrite flag_test in R1. rewrite R1. cbn [negb]. change ("u"%ch =? "r"%ch) with false. change ("u"%ch =? "n"%ch) with false. change ("u"%ch =? "t"%ch) with false. change ("u"%ch =? "s"%ch) with false. change ("u"%ch =? "u"%ch) with true. cbv iota.
    change (with_pos (c_pos c + (1 + 1)) c) with (fwd (1 + 1) c).
    rewrite (bind_ok _ (@appendUnicode_braces bld _ ds cs _ H2 HX HL)). rewrite fwd_fwd. reflexivity.
Qed.
End Says.

(** ** The whole heredoc *)
Lemma says_plain bol src out : says 0 [] false bol src out -> out = src.
Proof.
  induction 1 as [a b out HL HF HS IH|src out HN HS IH| |src out HS IH|r src out R1 R2 R3 R4 HS IH| |r src out R1 R2 R3 HS IH|r x src out R1 R2 HS IH|src out R1 HS IH|ds cs src out R1 HX HL HV HS IH|ds cs src out R1 HX HL HV HS IH];
    try (f_equal; (exact IH || (f_equal; exact IH))); auto.
  - destruct a; [exact IH|discriminate].
  - destruct R1 as [([] & _)|(_ & [])].
  - destruct R1 as [([] & _)|(_ & [])].
  - destruct R1 as [([] & _)|(_ & [])].
  - destruct R1 as [([] & _)|(_ & [])].
Qed.
Lemma last_byte r : rune_ok r -> r <> 13 -> exists b x, encode_rune r = b ++ [x] /\ x <> 13.
Proof.
  intros (H1 & _ & _) H2. rewrite encode_valid by exact H1. unfold encode_rune_raw.
  destruct (Z.ltb_spec r 128); [exists [], r; split; [reflexivity|exact H2]|].
  repeat match goal with |- context [if ?t then _ else _] => destruct t end.
  - eexists [_], _. split; [reflexivity|]. pose proof (Z.mod_pos_bound r 64). lia.
  - eexists [_; _], _. split; [reflexivity|]. pose proof (Z.mod_pos_bound r 64). lia.
  - eexists [_; _; _], _. split; [reflexivity|]. pose proof (Z.mod_pos_bound r 64). lia.
Qed.
Lemma nth_last (pre b : str) x z : nth (Z.to_nat (zlen pre + zlen b)) (pre ++ (b ++ [x]) ++ z) 0 = x.
Proof.
  replace (Z.to_nat (zlen pre + zlen b)) with (List.length (pre ++ b)) by (rewrite app_length; unfold zlen; lia).
  rewrite <- app_assoc, app_assoc, app_nth2, Nat.sub_diag by lia. reflexivity.
Qed.
Lemma content_ok tag ls : Forall (content_line tag) ls -> Forall rune_ok (content ls).
Proof.
  induction 1 as [|l ls (H & _) _ IH]; [constructor|]. change (content (l :: ls)) with ((l ++ [10]) ++ content ls). apply Forall_app. split; [|exact IH].
  apply Forall_app. split; [revert H; apply Forall_impl; tauto|constructor; [apply rune_ok_ascii; lia|constructor]].
Qed.
Lemma content_end ls : content ls = [] \/ exists s', content ls = s' ++ [10].
Proof.
  destruct ls as [|l ls _] using rev_ind; [left; reflexivity|right]. unfold content. rewrite flat_map_app. cbn [flat_map]. rewrite app_nil_r, app_assoc. eexists. reflexivity.
Qed.
Lemma app_same_length (A : Type) (a b c d : list A) : a ++ b = c ++ d -> List.length a = List.length c -> a = c.
Proof.
  revert c. induction a as [|x a IH]; intros [|y c] E L; try discriminate; [reflexivity|]. cbn in E, L. inversion E; subst. f_equal. apply IH; [assumption|lia].
Qed.
(** where the content begins: after the line, or where an earlier heredoc of the
    line says *)
Definition content_pos (c : ctx) (d : declaration) (tail : list Z) : Z :=
  if 0 <=? c_nls c then c_nls c else c_pos c + zlen (encode (declaration_text d)) + zlen (encode tail) + 1.
Definition heredoc_node (start cs : Z) (d : declaration) (body out : list Z) : expr :=
  EHeredoc (mkpos (start - 2) (cs + zlen (encode body) - (start - 2))) (encode (match d_syntax d with Some x => x | None => [] end))
    (EString (mkpos cs (zlen (encode body))) (encode out)).
Lemma heredoc_ok c d tail s0 cs ls e s1 body out :
  at_ c (encode (declaration_text d) ++ encode tail ++ 10 :: s0) -> declared d -> line_rest tail -> o_factory (c_opts c) = true ->
  cs = content_pos c d tail -> at_ (with_pos cs c) (encode (content ls) ++ encode (ending_text (d_tag d) e) ++ s1) ->
  s1 = [] \/ (exists s', s1 = 10 :: s') -> Forall (content_line (d_tag d)) ls -> ended e -> cut_end ls e body ->
  says (margin e) (match d_flags d with Some f => f | None => [] end) (d_quoted d) true body out ->
  (0 <= c_nls c -> exists pre z, c_text c = pre ++ 10 :: z /\ c_nls c = zlen pre + 1) ->
  evals (fun r => consumeHeredocString r) c tt
    (with_tok THeredoc (VExpr (heredoc_node (c_pos c) cs d body out))
       (with_nls (cs + zlen (encode (content ls)) + zlen (encode (ending_text (d_tag d) e)) + 1) (with_pos (c_pos c + zlen (encode (declaration_text d))) c))).
Proof.
  intros H HD HR HF Hcs HC Hs1 HL HE HB HS HN.
  assert (Htag : exists r t, d_tag d = r :: t /\ ~ space r /\ r <> "|"%ch /\ r <> "-"%ch) by (destruct HD as (X & _); exact X).
  assert (Htok : Forall (fun r => rune_ok r /\ r <> 10) (d_tag d)).
  { destruct HD as (_ & X & _). destruct (d_quoted d); revert X; apply Forall_impl; unfold plain_in_declaration; tauto. }
  assert (Hlet : Forall (fun r => In r (lit "trnsuL$")) (match d_flags d with Some f => f | None => [] end)).
  { destruct HD as (_ & _ & _ & X). destruct (d_flags d) as [f|]; [apply X; reflexivity|constructor]. }
  (* a newline is before the content *)
  assert (HNL : exists pre, c_text c = (pre ++ [10]) ++ encode (content ls) ++ encode (ending_text (d_tag d) e) ++ s1 /\ cs = zlen pre + 1).
  { destruct HC as (pre0 & T1 & P1). cbn [with_pos c_text c_pos] in *. unfold content_pos in Hcs. destruct (Z.leb_spec 0 (c_nls c)) as [G|G].
    - destruct (HN G) as (pre & z & T2 & P2). exists pre. split; [|lia]. rewrite T1. f_equal.
      assert (zlen pre0 = zlen (pre ++ [10])) by (rewrite zlen_app; change (zlen [10]) with 1; lia).
      rewrite T2 in T1. change (pre ++ 10 :: z) with (pre ++ [10] ++ z) in T1. rewrite app_assoc in T1.
      symmetry in T1. eapply app_same_length; [exact T1|unfold zlen in H0; lia].
    - destruct H as (pre2 & T2 & P2). exists (pre2 ++ encode (declaration_text d) ++ encode tail). split.
      + rewrite T1. f_equal. rewrite T2 in T1. assert (L : List.length pre0 = List.length ((pre2 ++ encode (declaration_text d) ++ encode tail) ++ [10])).
        { rewrite !app_length. cbn [List.length]. unfold zlen in *. lia. }
        replace (pre2 ++ encode (declaration_text d) ++ encode tail ++ 10 :: s0) with (((pre2 ++ encode (declaration_text d) ++ encode tail) ++ [10]) ++ s0) in T1 by (rewrite <- !app_assoc; reflexivity).
        symmetry in T1. eapply app_same_length; [exact T1|exact L].
      + rewrite !zlen_app. lia. }
  unfold consumeHeredocString. eapply ev_step; [reflexivity|]. cbv zeta.
  destruct (@declaration_ok (c_pos c - 2) d c _ H HD) as (qs & ss & es & Hq & ED).
  eapply ev_step; [exact ED|]. cbv beta iota. cbn [h_tag h_syntax h_flags h_quoteStart].
  set (c1 := fwd (zlen (encode (declaration_text d))) c). pose proof (at_fwd H) as H1. fold c1 in H1.
  assert (NE : encode (d_tag d) <> []). { destruct Htag as (r & t & -> & _). rewrite encode_cons. pose proof (@encode_rune_nonempty r). destruct (encode_rune r); [congruence|discriminate]. }
  destruct (encode (d_tag d)) as [|t0 t1] eqn:ET; [congruence|]. rewrite <- ET in *.
  pose proof (@start_of_text (c_pos c - 2) c1 tail s0 H1 HR) as ES. unfold bind in ES. destruct (peek c1) as [[x sz] cp| |] eqn:EP; [|discriminate|discriminate].
  eapply ev_step; [exact EP|]. cbv beta iota. eapply ev_step; [exact ES|]. cbv beta iota.
  set (c2 := content_at c1 tail).
  assert (P2 : c_pos c2 = cs). { rewrite Hcs. unfold c2, content_at, content_pos. change (c_nls c1) with (c_nls c). destruct (0 <=? c_nls c); cbn; lia. }
  assert (X2 : c_text c2 = c_text c) by (unfold c2, content_at; destruct (0 <=? c_nls c1); reflexivity).
  assert (W2 : forall a b, with_nls a (with_pos b c2) = with_nls a (with_pos b c)) by (intros; unfold c2, content_at; destruct (0 <=? c_nls c1); reflexivity).
  assert (O2 : c_opts c2 = c_opts c) by (unfold c2, content_at; destruct (0 <=? c_nls c1); reflexivity).
  assert (H2 : at_ c2 (encode (content ls) ++ encode (ending_text (d_tag d) e) ++ s1)) by (eapply at_state; [exact HC|exact X2|rewrite P2; reflexivity]).
  destruct (@lines_loop (c_pos c - 2) (d_tag d) Htag Htok ls c2 _ H2 HL) as (k & Hk & EL).
  pose proof (at_fwd H2) as H3. set (c3 := fwd (zlen (encode (content ls))) c2) in *.
  destruct HNL as (pre & T0 & PP). pose proof (zlen_nonneg pre) as Zp. pose proof (zlen_nonneg (encode (content ls))) as Zc.
  destruct (@ending_step (c_pos c - 2) (d_tag d) Htag Htok e c3 s1 H3 HE Hs1) as (p4 & EE).
  { intros X. unfold cut_end in HB. destruct (e_dash e); [|congruence]. destruct HB as (b & EC & _). unfold c3. cbn [fwd with_pos c_pos]. rewrite P2. rewrite EC, encode_app, zlen_app. change (zlen (encode [10])) with 1. pose proof (zlen_nonneg (encode b)). lia. }
  (* the end of the content *)
  set (cend := match e_dash e with None => c_pos c3 | Some _ => if nth (Z.to_nat (c_pos c3 - 1 - 1)) (c_text c3) 0 =? 13 then c_pos c3 - 1 - 1 else c_pos c3 - 1 end) in EE.
  assert (HCE : cend = cs + zlen (encode body) /\ exists rr, content ls ++ ending_text (d_tag d) e = body ++ rr /\ ((exists r l, rr = r :: l /\ ~ tab_or_space r) \/ body = [] \/ exists s', body = s' ++ [10])).
  { unfold cend, cut_end in *. assert (P3 : c_pos c3 = cs + zlen (encode (content ls))) by (unfold c3; cbn [fwd with_pos c_pos]; rewrite P2; reflexivity).
    change (c_text c3) with (c_text c2). rewrite X2. rewrite P3. destruct (e_dash e) as [w|].
    - destruct HB as (b & EC & HB). rewrite EC in *. rewrite encode_app, zlen_app. change (zlen (encode [10])) with 1. destruct HB as [(b' & -> & ->)|(NB & ->)].
      + rewrite encode_app, zlen_app. change (zlen (encode [13])) with 1.
        assert (EN : nth (Z.to_nat (cs + (zlen (encode b') + 1 + 1) - 1 - 1)) (c_text c) 0 = 13).
        { rewrite T0, !encode_app. change (encode [13]) with [13]. replace (cs + (zlen (encode b') + 1 + 1) - 1 - 1) with (zlen (pre ++ [10]) + zlen (encode b')) by (rewrite zlen_app; change (zlen [10]) with 1; lia).
          rewrite <- (app_assoc (encode b' ++ [13])). apply nth_last. }
        rewrite EN. change (13 =? 13) with true. cbv iota. split; [lia|]. exists ([13; 10] ++ ending_text (d_tag d) e). split; [rewrite <- !app_assoc; reflexivity|]. left. eexists _, _. split; [reflexivity|]. unfold tab_or_space. lia.
      + assert (EN : nth (Z.to_nat (cs + (zlen (encode b) + 1) - 1 - 1)) (c_text c) 0 <> 13).
        { rewrite T0. destruct b as [|r b _] using rev_ind.
          - change (encode ([] ++ [10])) with [10]. change (zlen (encode [])) with 0. replace (cs + (0 + 1) - 1 - 1) with (zlen (@nil Z) + zlen pre) by (change (zlen (@nil Z)) with 0; lia).
            match goal with |- nth _ ((pre ++ [10]) ++ ?z) 0 <> 13 => pose proof (@nth_last [] pre 10 z) as X; cbn [app] in X; intros Y; enough (10 = 13) by discriminate; rewrite <- X; exact Y end.
          - pose proof (content_ok HL) as HO. rewrite EC in HO. apply Forall_app in HO. destruct HO as [HO _]. apply Forall_app in HO. destruct HO as [_ HO]. pose proof (Forall_inv HO) as HOr.
            destruct (@last_byte r HOr) as (y & z & EY & Hz). { intros ->. apply NB. exists b. reflexivity. }
            rewrite !encode_app. assert (EY' : encode [r] = y ++ [z]) by (rewrite encode_cons, EY; apply app_nil_r). rewrite EY', !zlen_app. change (zlen [z]) with 1.
            replace (cs + (zlen (encode b) + (zlen y + 1) + 1) - 1 - 1) with (zlen (pre ++ [10]) + zlen (encode b ++ y)) by (rewrite !zlen_app; change (zlen [10]) with 1; lia).
            rewrite (app_assoc (encode b)). rewrite <- (app_assoc (((encode b) ++ y) ++ [z])). rewrite nth_last. exact Hz. }
        destruct (Z.eqb_spec (nth (Z.to_nat (cs + (zlen (encode b) + 1) - 1 - 1)) (c_text c) 0) 13); [congruence|]. split; [lia|]. exists ([10] ++ ending_text (d_tag d) e). split; [rewrite <- app_assoc; reflexivity|]. left. eexists _, _. split; [reflexivity|]. unfold tab_or_space. lia.
    - subst body. split; [reflexivity|]. exists (ending_text (d_tag d) e). split; [reflexivity|]. right. apply content_end. }
  destruct HCE as (HCE & rr & ER & HTO). clearbody cend.
  eapply ev_step.
  { unfold while. pose proof (loop_fuel_enough H2) as LF. pose proof (encode_length (content ls)) as LE.
    replace (loop_fuel c2) with (k + S (loop_fuel c2 - k - 1))%nat by lia. rewrite EL. fold c3. cbn [loop]. unfold bind. rewrite EE. reflexivity. }
  cbv beta iota.
  assert (HO : Forall rune_ok rr).
  { assert (X : Forall rune_ok (content ls ++ ending_text (d_tag d) e)). 
    { apply Forall_app. split; [exact (content_ok HL)|]. destruct HE as (Q1 & Q2 & Q3 & Q4). unfold ending_text. apply Forall_app. split; [exact (space_ok Q1)|]. apply Forall_app. split; [|apply Forall_app; split; [|apply Forall_app; split]].
      - destruct (e_margin e); [constructor; [apply rune_ok_ascii; lia|apply space_ok; apply Q2; reflexivity]|constructor].
      - destruct (e_dash e); [constructor; [apply rune_ok_ascii; lia|apply space_ok; apply Q3; reflexivity]|constructor].
      - revert Htok. apply Forall_impl. tauto.
      - exact (space_ok Q4). }
    rewrite ER in X. apply Forall_app in X. tauto. }
  assert (H5 : forall p, at_ (with_pos cs (with_pos p c3)) (encode body ++ encode rr ++ s1)).
  { intros p. apply (@at_state c2); [|reflexivity|symmetry; exact P2]. rewrite app_assoc, <- encode_app, <- ER, encode_app, <- app_assoc. exact H2. }
  rewrite P2. set (fl := match d_flags d with Some f => f | None => [] end) in *.
  assert (FL : match option_map flag_list (d_flags d) with Some fl => fl | None => [] end = flag_list fl) by (unfold fl; destruct (d_flags d); reflexivity).
  rewrite Hq.
  destruct (match option_map flag_list (d_flags d) with Some _ => true | None => false end || d_quoted d || (0 <? Z.of_nat (margin e)))%bool eqn:EB.
  - eapply ev_step; [reflexivity|]. cbv beta. eapply ev_step; [reflexivity|]. cbv beta. change (c_opts (with_pos cs (with_pos p4 c3))) with (c_opts c2). rewrite O2, HF, andb_true_r. rewrite FL.
    destruct (@says_ok (margin e) fl (d_quoted d) cend (if d_quoted d then Some [] else None) rr s1) with (bol := true) (src := body) (out := out) (bld := @nil Z) (c := with_pos cs (with_pos p4 c3)) as (p5 & E5).
    + destruct (d_quoted d); congruence.
    + exact Hlet.
    + exact HO.
    + destruct Hs1 as [-> | (s' & ->)]; [exists 0, 0|exists 10, 1]; (split; [reflexivity|unfold tab_or_space; lia]).
    + exact HS.
    + apply H5.
    + cbn [with_pos c_pos]. exact HCE.
    + exact HTO.
    + eapply ev_bind; [eapply ev_same; [|exact E5]; intros r; reflexivity|]. cbv beta iota.
      assert (EM : forall (A : Type) (f : list expr -> A) (y : A), match (if d_quoted d then Some [] else None) with Some ((_ :: _) as ss0) => f ss0 | _ => y end = y) by (intros; destruct (d_quoted d); reflexivity).
      rewrite EM. apply ev_all. intros r. unfold bind at 1, modify at 1. unfold bind at 1, option_on at 1, ask at 1. cbn [with_nls with_pos c_opts]. change (c_opts c3) with (c_opts c2). rewrite O2, HF. cbv iota. unfold settokenValue, modify.
      f_equal. f_equal.
      * unfold heredoc_node. rewrite HCE. replace (cs + zlen (encode body) - cs) with (zlen (encode body)) by lia. reflexivity.
      * change (with_pos ?a (with_pos ?b ?x)) with (with_pos a x). cbn [app].
        transitivity (with_nls (c_pos c3 + zlen (encode (ending_text (d_tag d) e)) + 1) (with_pos (c_pos c + zlen (encode (declaration_text d))) c2)); [reflexivity|]. rewrite W2. unfold c3. cbn [fwd with_pos c_pos]. rewrite P2. reflexivity.
  - assert (EV : out = body).
    { apply orb_false_elim in EB. destruct EB as [EB E3]. apply orb_false_elim in EB. destruct EB as [E1 E2]. assert (M0 : margin e = O) by lia. unfold fl in HS. destruct (d_flags d); [discriminate|]. rewrite M0, E2 in HS. eapply says_plain. exact HS. }
    apply ev_all. intros r. unfold bind at 1, setPos at 1, modify at 1. rewrite HCE.
    pose proof (@at_from (with_pos cs (with_pos p4 c3)) (encode body) _ cs (H5 p4) eq_refl) as EFr.
    assert (EFw : with_pos (cs + zlen (encode body)) (with_pos p4 c3) = fwd (zlen (encode body)) (with_pos cs (with_pos p4 c3))) by reflexivity.
    rewrite EFw. rewrite (bind_ok _ EFr). unfold bind at 1, modify at 1. unfold bind at 1, option_on at 1, ask at 1. cbn [with_nls with_pos fwd c_opts]. change (c_opts c3) with (c_opts c2). rewrite O2, HF. cbv iota. unfold settokenValue, modify.
    f_equal. f_equal.
    + unfold heredoc_node. rewrite EV. replace (cs + zlen (encode body) - cs) with (zlen (encode body)) by lia. reflexivity.
    + transitivity (with_nls (c_pos c3 + zlen (encode (ending_text (d_tag d) e)) + 1) (with_pos (c_pos c + zlen (encode (declaration_text d))) c2)); [reflexivity|]. rewrite W2. unfold c3. cbn [fwd with_pos c_pos]. rewrite P2. reflexivity.
Qed.
