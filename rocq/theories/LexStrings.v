(** * LexStrings: quoted strings and regular expressions *)
From Verif Require Import Base Float Tokens Ast Ctx Lexer Parser Utf8Facts SpecReader ReaderProof LexBase SpecLex GapProof LexTokens Evals.
From Coq Require Import Lia ZifyBool.

(** reading on in a delimited string *)
Definition scanning (delim dstart : Z) (h : handler) (buf : str) (start : Z) (segs : option (list expr)) (r : recT) : M (option (list expr)) :=
  bind next (fun p => r _ (FDelim delim dstart h buf (fst p) start segs)).
Section Scan.
Variables (delim dstart : Z) (h : handler) (start : Z) (segs : option (list expr)).
Hypothesis Hdelim : 0 < delim < 128 /\ delim <> "\"%ch /\ delim <> "$"%ch.
Lemma scan_next buf c ec p c1 x c' : next c = Ok (ec, p) c1 ->
  evals (fun r => delim_body r delim dstart h buf ec start segs) c1 x c' -> evals (scanning delim dstart h buf start segs) c x c'.
Proof. intros E H. unfold scanning. eapply ev_step; [exact E|]. cbn [fst]. apply ev_rec. exact H. Qed.
Lemma scan_end buf c s : at_ c (delim :: s) -> evals (scanning delim dstart h buf start segs) c segs (with_tok TString (VStr buf) (fwd 1 c)).
Proof.
  intros H. eapply scan_next; [exact (at_next H (@head_ascii delim s ltac:(lia)))|]. apply ev_all. intros r. unfold delim_body.
  replace (delim =? 0) with false by lia. rewrite Z.eqb_refl. reflexivity.
Qed.
Lemma next_continue buf ec x c c' (r : recT) p c1 : next c = Ok (x, p) c1 ->
  ('(ec', _) <- next ;; r _ (FDelim delim dstart h (buf ++ encode_rune ec) ec' start segs)) c = c' ->
  scanning delim dstart h (buf ++ encode_rune ec) start segs r c = c'.
Proof. intros E <-. unfold scanning, bind. rewrite E. reflexivity. Qed.
Lemma scanning_alt buf : forall (r : recT) c,
  ('(ec', _) <- next ;; r _ (FDelim delim dstart h buf ec' start segs)) c = scanning delim dstart h buf start segs r c.
Proof. intros r c. unfold scanning, bind. destruct (next c) as [[? ?]| |]; reflexivity. Qed.
Lemma scan_plain buf c e s x c' : at_ c (encode_rune e ++ s) -> rune_ok e -> e <> delim -> e <> "\"%ch -> (e = "$"%ch -> segs = None) ->
  evals (scanning delim dstart h (buf ++ encode_rune e) start segs) (fwd (zlen (encode_rune e)) c) x c' ->
  evals (scanning delim dstart h buf start segs) c x c'.
Proof.
  intros H He H1 H2 H3 Hc. eapply scan_next; [exact (at_next_rune H He)|]. destruct He as (_ & _ & He).
  eapply ev_from; [|exact Hc]. intros r. unfold delim_body.
  replace (e =? 0) with false by lia. replace (e =? delim) with false by lia. replace (e =? "\"%ch) with false by lia.
  destruct (Z.eqb_spec e "$"%ch) as [->|_].
  - rewrite H3 by reflexivity. rewrite <- H3 by reflexivity. apply scanning_alt.
  - apply scanning_alt.
Qed.
Lemma scan_esc_delim buf c s x c' : at_ c ("\"%ch :: delim :: s) ->
  evals (scanning delim dstart h (buf ++ [delim]) start segs) (fwd 2 c) x c' ->
  evals (scanning delim dstart h buf start segs) c x c'.
Proof.
  intros H Hc. eapply scan_next; [exact (at_next H (@head_ascii "\"%ch _ ltac:(lia)))|].
  eapply ev_from; [|exact Hc]. intros r. unfold delim_body. change ("\"%ch =? 0) with false. replace ("\"%ch =? delim) with false by lia. change ("\"%ch =? "\"%ch) with true. cbv iota.
  rewrite (bind_ok _ (at_next (at_fwd1 H) (@head_ascii delim s ltac:(lia)))). cbv beta iota. replace (delim =? 0) with false by lia. rewrite Z.eqb_refl.
  rewrite (encode_ascii (b := delim)) by lia. rewrite fwd_fwd. apply scanning_alt.
Qed.
Lemma scan_esc buf buf' c c2 e s x c' : at_ c ("\"%ch :: encode_rune e ++ s) -> rune_ok e -> e <> delim ->
  handle_escape h buf e (fwd (1 + zlen (encode_rune e)) c) = Ok buf' c2 ->
  evals (scanning delim dstart h buf' start segs) c2 x c' ->
  evals (scanning delim dstart h buf start segs) c x c'.
Proof.
  intros H He H1 Hh Hc. eapply scan_next; [exact (at_next H (@head_ascii "\"%ch _ ltac:(lia)))|].
  eapply ev_from; [|exact Hc]. intros r. unfold delim_body. change ("\"%ch =? 0) with false. replace ("\"%ch =? delim) with false by lia. change ("\"%ch =? "\"%ch) with true. cbv iota.
  rewrite (bind_ok _ (at_next_rune (at_fwd1 H) He)). cbv beta iota. destruct He as (_ & _ & He). replace (e =? 0) with false by lia. replace (e =? delim) with false by lia.
  rewrite fwd_fwd. rewrite (bind_ok _ Hh). apply scanning_alt.
Qed.
End Scan.
Ltac delims := split; [split; reflexivity|split; discriminate].
Lemma rune_ok_ascii e : 0 < e < 128 -> rune_ok e.
Proof. intros H. unfold rune_ok, valid_rune. repeat split; lia. Qed.
Lemma at_encode_cons c r rs s : at_ c (encode (r :: rs) ++ s) -> at_ c (encode_rune r ++ encode rs ++ s).
Proof. rewrite encode_cons, <- app_assoc. exact (fun H => H). Qed.
Lemma encode_cons_ascii b rs : 0 <= b < 128 -> encode (b :: rs) = b :: encode rs.
Proof. intros H. rewrite encode_cons, (encode_ascii H). reflexivity. Qed.

(** *** Single quoted strings *)
Lemma sq_scan dstart start src rs : sq src rs -> forall buf c s, at_ c (encode src ++ "'"%ch :: s) ->
  evals (scanning "'"%ch dstart HSingle buf start None) c None (with_tok TString (VStr (buf ++ encode rs)) (fwd (zlen (encode src) + 1) c)).
Proof.
  induction 1 as [|r src rs Hr H1 H2 Hs IH|src rs Hs IH|src rs Hs IH|r src rs Hr H1 H2 Hs IH]; intros buf c s H.
  - rewrite app_nil_r. eapply ev_eq; [eapply scan_end; [delims|exact H]|reflexivity|reflexivity].
  - apply at_encode_cons in H. eapply scan_plain; [delims|exact H|exact Hr|exact H1|exact H2|reflexivity|]. eapply ev_eq; [apply (IH _ _ s (at_fwd H))| |reflexivity].
    rewrite <- app_assoc, !encode_cons, fwd_fwd, zlen_app. do 2 f_equal. lia.
  - rewrite !encode_cons_ascii in H by (split; reflexivity || discriminate). cbn [app] in H. eapply scan_esc_delim; [delims|exact H|].
    pose proof (at_fwd1 (at_fwd1 H)) as H'. rewrite fwd_fwd in H'. eapply ev_eq; [apply (IH _ _ s H')| |reflexivity].
    rewrite !encode_cons_ascii by (split; reflexivity || discriminate). rewrite <- app_assoc, fwd_fwd, !zlen_cons. cbn [app]. do 2 f_equal. lia.
  - rewrite !encode_cons_ascii in H by (split; reflexivity || discriminate). cbn [app] in H.
    eapply (@scan_esc "'"%ch dstart HSingle start None ltac:(delims) buf _ c _ "\"%ch); [exact H|apply rune_ok_ascii; split; reflexivity|discriminate|reflexivity|].
    pose proof (at_fwd1 (at_fwd1 H)) as H'. rewrite fwd_fwd in H'. eapply ev_eq; [apply (IH _ _ s H')| |reflexivity].
    rewrite !encode_cons_ascii by (split; reflexivity || discriminate). rewrite <- app_assoc, fwd_fwd, !zlen_cons. cbn [app]. do 2 f_equal. lia.
  - rewrite encode_cons_ascii in H by (split; reflexivity || discriminate). rewrite <- app_comm_cons in H. apply at_encode_cons in H || idtac.
    rewrite encode_cons, <- app_assoc in H.
    eapply (@scan_esc "'"%ch dstart HSingle start None ltac:(delims) buf _ c _ r); [exact H|exact Hr|exact H1| |].
    { unfold handle_escape. replace (r =? "\"%ch) with false by lia. reflexivity. }
    pose proof (at_fwd (at_fwd1 H)) as H'. rewrite fwd_fwd in H'. eapply ev_eq; [apply (IH _ _ s H')| |reflexivity].
    rewrite !(encode_cons_ascii (b := "\"%ch)) by (split; reflexivity || discriminate). rewrite <- app_assoc, fwd_fwd, !zlen_cons, !encode_cons, zlen_app. cbn [app]. do 2 f_equal. lia.
Qed.
(** *** Regular expressions *)
Lemma rx_scan dstart start src rs : rx src rs -> forall buf c s, at_ c (encode src ++ "/"%ch :: s) ->
  evals (scanning "/"%ch dstart HRegexp buf start None) c None (with_tok TString (VStr (buf ++ encode rs)) (fwd (zlen (encode src) + 1) c)).
Proof.
  induction 1 as [|r src rs Hr H1 H2 Hs IH|src rs Hs IH|r src rs Hr H1 Hs IH]; intros buf c s H.
  - rewrite app_nil_r. eapply ev_eq; [eapply scan_end; [delims|exact H]|reflexivity|reflexivity].
  - apply at_encode_cons in H. eapply scan_plain; [delims|exact H|exact Hr|exact H1|exact H2|reflexivity|]. eapply ev_eq; [apply (IH _ _ s (at_fwd H))| |reflexivity].
    rewrite <- app_assoc, !encode_cons, fwd_fwd, zlen_app. do 2 f_equal. lia.
  - rewrite !encode_cons_ascii in H by (split; reflexivity || discriminate). cbn [app] in H. eapply scan_esc_delim; [delims|exact H|].
    pose proof (at_fwd1 (at_fwd1 H)) as H'. rewrite fwd_fwd in H'. eapply ev_eq; [apply (IH _ _ s H')| |reflexivity].
    rewrite !encode_cons_ascii by (split; reflexivity || discriminate). rewrite <- app_assoc, fwd_fwd, !zlen_cons. cbn [app]. do 2 f_equal. lia.
  - rewrite encode_cons_ascii in H by (split; reflexivity || discriminate). rewrite <- app_comm_cons in H.
    rewrite encode_cons, <- app_assoc in H.
    eapply (@scan_esc "/"%ch dstart HRegexp start None ltac:(delims) buf _ c _ r); [exact H|exact Hr|exact H1|reflexivity|].
    pose proof (at_fwd (at_fwd1 H)) as H'. rewrite fwd_fwd in H'. eapply ev_eq; [apply (IH _ _ s H')| |reflexivity].
    rewrite !(encode_cons_ascii (b := "\"%ch)) by (split; reflexivity || discriminate). rewrite <- app_assoc, fwd_fwd, !zlen_cons, !encode_cons, zlen_app. cbn [app]. do 2 f_equal. lia.
Qed.
(** *** Unicode escapes *)
Lemma Forall2_length A B (P : A -> B -> Prop) l l' : Forall2 P l l' -> List.length l = List.length l'.
Proof. induction 1; cbn; congruence. Qed.
Lemma hex_list ds cs : Forall2 hex_char ds cs -> Forall (fun x => 0 <= x < 128 /\ isHexDigit x = true) cs.
Proof. induction 1 as [|d c ds cs Hd _ IH]; constructor; auto. pose proof (hex_char_ascii Hd). intuition lia. Qed.
Lemma hex_small ds cs : Forall2 hex_char ds cs -> Forall (fun d => 0 <= d < 16) ds.
Proof. induction 1 as [|d c ds cs Hd _ IH]; constructor; auto. unfold hex_char in Hd. lia. Qed.
Lemma value_bound ds : Forall (fun d => 0 <= d < 16) ds -> forall a n, 0 <= a < 16 ^ n -> 0 <= n ->
  0 <= fold_left (fun a d => a * 16 + d) ds a < 16 ^ (n + zlen ds).
Proof.
  induction 1 as [|d ds Hd HF IH]; intros a n Ha Hn; cbn [fold_left].
  - rewrite Z.add_0_r. exact Ha.
  - replace (n + zlen (d :: ds)) with ((n + 1) + zlen ds) by (rewrite zlen_cons; lia). apply IH; [|lia]. rewrite Z.pow_add_r by lia. lia.
Qed.
Lemma parse_hex ds cs : Forall2 hex_char ds cs -> ds <> [] -> (List.length ds <= 6)%nat -> parse_int cs 16 32 = value 16 ds.
Proof.
  intros H Hn HL. pose proof (hex_small H) as HS. apply parse_int_value; auto; [lia| |].
  - revert HS. apply Forall_impl. lia.
  - pose proof (@value_bound ds HS 0 0 ltac:(lia) ltac:(lia)) as B. unfold value. rewrite Z.add_0_l in B.
    assert (16 ^ zlen ds <= 16 ^ 6) by (apply Z.pow_le_mono_r; unfold zlen; lia). change (16 ^ 6) with 16777216 in *. change (2 ^ (32 - 1)) with 2147483648. lia.
Qed.
Lemma unicode_digit_at start c b s : at_ c (b :: s) -> 0 <= b < 128 -> isHexDigit b = true -> unicode_digit start c = Ok tt (fwd 1 c).
Proof. intros H Hb Hx. unfold unicode_digit. rewrite (bind_ok _ (at_next H (@head_ascii b s Hb))). cbv beta iota. now rewrite Hx. Qed.
Lemma appendUnicode_4 buf c ds cs s : at_ c (cs ++ s) -> Forall2 hex_char ds cs -> List.length ds = 4%nat ->
  appendUnicode buf c = Ok (buf ++ encode_rune (value 16 ds)) (fwd 4 c).
Proof.
  intros H HX HL. pose proof (hex_list HX) as HF. rewrite <- (@parse_hex ds cs HX) by (try lia; destruct ds; discriminate).
  assert (List.length cs = 4%nat) as HL' by (rewrite <- HL; symmetry; eapply Forall2_length; exact HX). clear HX HL.
  destruct cs as [|a [|b [|d [|e [|? ?]]]]]; try discriminate. clear HL'.
  inversion HF as [|? ? [A1 A2] HF1]; subst. inversion HF1 as [|? ? [B1 B2] HF2]; subst. inversion HF2 as [|? ? [D1 D2] HF3]; subst. inversion HF3 as [|? ? [E1 E2] HF4]; subst.
  cbn [app] in H. pose proof (at_fwd1 H) as H1. pose proof (at_fwd1 H1) as H2. pose proof (at_fwd1 H2) as H3.
  unfold appendUnicode. rewrite (bind_ok _ (at_next H (@head_ascii a _ A1))). cbv beta iota. rewrite A2.
  rewrite (bind_ok _ (unicode_digit_at _ H1 B1 B2)), (bind_ok _ (unicode_digit_at _ H2 D1 D2)), (bind_ok _ (unicode_digit_at _ H3 E1 E2)).
  rewrite !fwd_fwd. rewrite (bind_ok _ (@at_from c [a; b; d; e] s (c_pos c) H eq_refl)). reflexivity.
Qed.
Lemma appendUnicode_braces buf c ds cs s : at_ c ("{"%ch :: cs ++ "}"%ch :: s) -> Forall2 hex_char ds cs -> (2 <= List.length ds <= 6)%nat ->
  appendUnicode buf c = Ok (buf ++ encode_rune (value 16 ds)) (fwd (zlen cs + 2) c).
Proof.
  intros H HX HL. pose proof (hex_list HX) as HF. rewrite <- (@parse_hex ds cs HX) by (first [lia | destruct ds; [cbn in HL; lia|discriminate]]).
  assert (2 <= List.length cs <= 6)%nat as HL' by (rewrite <- (Forall2_length HX); exact HL). clear HX HL.
  unfold appendUnicode. rewrite (bind_ok _ (at_next H (@head_ascii "{"%ch _ ltac:(lia)))). cbv beta iota. change (isHexDigit "{"%ch) with false. change (negb ("{"%ch =? "{"%ch)) with false. cbv iota.
  unfold bind at 1, getPos, ask. pose proof (at_fwd1 H) as H1. rewrite (bind_ok _ (at_skip_while H1 HF (@head_ascii "}"%ch s ltac:(lia)) eq_refl)). cbv beta iota.
  unfold bind at 1. cbv zeta. cbn [fwd with_pos c_pos]. match goal with |- context [if negb ?b then _ else _] => replace b with true by (change ("}"%ch =? "}"%ch) with true; unfold zlen; cbn [fwd with_pos c_pos]; lia) end. cbn [negb].
  rewrite (bind_ok _ (@at_from (fwd 1 c) cs _ (c_pos c + 1) H1 eq_refl)). unfold bind, advance, modify, ret.
  match goal with |- Ok _ (with_pos _ ?x) = _ => fold (fwd 1 x) end.
  rewrite !fwd_fwd. replace (1 + (zlen cs + 1)) with (zlen cs + 2) by lia. reflexivity.
Qed.
Lemma encode_asciis cs : Forall (fun x => 0 <= x < 128) cs -> encode cs = cs.
Proof. induction 1 as [|c cs Hc _ IH]; [reflexivity|]. rewrite encode_cons_ascii by exact Hc. now rewrite IH. Qed.
(** *** Double quoted strings *)
Lemma scan_at delim dstart h start segs buf buf' c c0 x c' : evals (scanning delim dstart h buf' start segs) c0 x c' -> buf = buf' -> c = c0 ->
  evals (scanning delim dstart h buf start segs) c x c'.
Proof. now intros H -> ->. Qed.
(** reading over a part of a string without interpolations *)
Lemma dq_run hex dstart start segs src rs x c' : dq hex src rs -> forall buf c s, at_ c (encode src ++ s) -> o_factory (c_opts c) = true -> o_hex (c_opts c) = hex ->
  evals (scanning """"%ch dstart HDouble (buf ++ encode rs) start segs) (fwd (zlen (encode src)) c) x c' ->
  evals (scanning """"%ch dstart HDouble buf start segs) c x c'.
Proof.
  induction 1 as [|r src rs Hr H1 H2 H3 Hs IH|r src rs Hr Hs IH|e r src rs Hr Hs IH|cs ds src rs HX HL HV Hs IH|cs ds src rs HX HL HV Hs IH|r src rs Hr H1 H2 Hs IH];
    intros buf c s H Hf Hh HK.
  - change (encode []) with (@nil Z) in HK. change (zlen (@nil Z)) with 0 in HK. rewrite app_nil_r, fwd_0 in HK. exact HK.
  - apply at_encode_cons in H. eapply scan_plain; [delims|exact H|exact Hr|exact H1|exact H2|congruence|]. apply (IH _ _ s (at_fwd H) Hf Hh).
    eapply scan_at; [exact HK|now rewrite <- app_assoc, encode_cons|rewrite encode_cons, fwd_fwd, zlen_app; f_equal; lia].
  - assert (Ha : 0 < r < 128) by (cbn in Hr; lia). rewrite encode_cons_ascii, encode_cons_ascii in H by lia. cbn [app] in H.
    pose proof (at_fwd1 (at_fwd1 H)) as H'. rewrite fwd_fwd in H'.
    assert (K : evals (scanning """"%ch dstart HDouble (buf ++ [r]) start segs) (fwd 2 c) x c').
    { apply (IH _ _ s H' Hf Hh). eapply scan_at; [exact HK|rewrite encode_cons_ascii by lia; now rewrite <- app_assoc|rewrite !encode_cons_ascii by lia; rewrite fwd_fwd, !zlen_cons; f_equal; lia]. }
    destruct (Z.eq_dec r """"%ch) as [->|Hd]; [eapply scan_esc_delim; [delims|exact H|exact K]|].
    eapply (@scan_esc """"%ch dstart HDouble start segs ltac:(delims) buf _ c _ r); [rewrite (encode_ascii (b := r)) by lia; exact H|now apply rune_ok_ascii|exact Hd| |exact K].
    rewrite (encode_ascii (b := r)) by lia. unfold handle_escape. cbn in Hr. destruct Hr as [<-|[<-|[<-|[<-|[]]]]]; try reflexivity; [congruence|].
    cbn. unfold bind, option_on, ask. cbn [fwd with_pos c_opts]. rewrite Hf. reflexivity.
  - assert (Ha : 0 < e < 128 /\ 0 < r < 128) by (cbn in Hr; destruct Hr as [X|[X|[X|[X|[]]]]]; inversion X; lia). rewrite encode_cons_ascii, encode_cons_ascii in H by lia. cbn [app] in H.
    pose proof (at_fwd1 (at_fwd1 H)) as H'. rewrite fwd_fwd in H'.
    eapply (@scan_esc """"%ch dstart HDouble start segs ltac:(delims) buf _ c _ e); [rewrite (encode_ascii (b := e)) by lia; exact H|now apply rune_ok_ascii|cbn in Hr; destruct Hr as [X|[X|[X|[X|[]]]]]; inversion X; discriminate| |].
    { instantiate (1 := fwd 2 c). instantiate (1 := buf ++ [r]). rewrite (encode_ascii (b := e)) by lia. unfold handle_escape. cbn in Hr. destruct Hr as [X|[X|[X|[X|[]]]]]; inversion X; subst; reflexivity. }
    apply (IH _ _ s H' Hf Hh). eapply scan_at; [exact HK|rewrite encode_cons_ascii by lia; now rewrite <- app_assoc|rewrite !encode_cons_ascii by lia; rewrite fwd_fwd, !zlen_cons; f_equal; lia].
  - assert (HA : Forall (fun x => 0 <= x < 128) cs) by (apply hex_list in HX; revert HX; apply Forall_impl; tauto).
    assert (HL' : zlen cs = 4) by (unfold zlen; rewrite <- (Forall2_length HX), HL; reflexivity).
    rewrite !encode_cons_ascii, encode_app, (encode_asciis HA) in H by lia. cbn [app] in H. rewrite <- app_assoc in H.
    pose proof (at_fwd1 (at_fwd1 H)) as H'. rewrite fwd_fwd in H'.
    eapply (@scan_esc """"%ch dstart HDouble start segs ltac:(delims) buf _ c _ "u"%ch); [exact H|apply rune_ok_ascii; lia|discriminate|exact (appendUnicode_4 buf H' HX HL)|].
    pose proof (at_fwd H') as H2. rewrite HL' in H2. apply (IH _ _ s H2 Hf Hh). eapply scan_at; [exact HK|now rewrite encode_cons, <- app_assoc|].
    rewrite (encode_cons_ascii (b := "\"%ch)), (encode_cons_ascii (b := "u"%ch)) by lia. rewrite encode_app, (encode_asciis HA), !fwd_fwd, !zlen_cons, zlen_app.
    f_equal. lia.
  - assert (HA : Forall (fun x => 0 <= x < 128) cs) by (apply hex_list in HX; revert HX; apply Forall_impl; tauto).
    rewrite !encode_cons_ascii, encode_app, (encode_asciis HA), encode_cons_ascii in H by lia. cbn [app] in H. rewrite <- app_assoc in H. cbn [app] in H.
    pose proof (at_fwd1 (at_fwd1 H)) as H'. rewrite fwd_fwd in H'.
    eapply (@scan_esc """"%ch dstart HDouble start segs ltac:(delims) buf _ c _ "u"%ch); [exact H|apply rune_ok_ascii; lia|discriminate|exact (appendUnicode_braces buf H' HX HL)|].
    pose proof (at_fwd1 (at_fwd (at_fwd1 H'))) as H2. rewrite !(fwd_fwd _ _ (fwd (1 + 1) c)) in H2.
    replace (1 + zlen cs + 1) with (zlen cs + 2) in H2 by lia.
    apply (IH _ _ s H2 Hf Hh). eapply scan_at; [exact HK|now rewrite encode_cons, <- app_assoc|].
    rewrite (encode_cons_ascii (b := "\"%ch)), (encode_cons_ascii (b := "u"%ch)), (encode_cons_ascii (b := "{"%ch)) by lia. rewrite encode_app, (encode_asciis HA), !fwd_fwd, !zlen_cons, zlen_app.
    rewrite (encode_cons_ascii (b := "}"%ch)), zlen_cons by lia.
    f_equal. lia.
  - rewrite encode_cons_ascii in H by lia. rewrite <- app_comm_cons in H.
    rewrite encode_cons, <- app_assoc in H. cbn [In] in H1.
    eapply (@scan_esc """"%ch dstart HDouble start segs ltac:(delims) buf _ c _ r); [exact H|exact Hr|lia| |].
    { unfold handle_escape. replace ((r =? "\"%ch) || (r =? "'"%ch)) with false by lia. replace (r =? "$"%ch) with false by lia.
      replace (r =? "n"%ch) with false by lia. replace (r =? "r"%ch) with false by lia. replace (r =? "t"%ch) with false by lia. replace (r =? "s"%ch) with false by lia.
      replace (r =? "u"%ch) with false by lia. unfold bind, option_on, ask. cbn [fwd with_pos c_opts]. rewrite Hh.
      replace ((r =? "x"%ch) && hex) with false; [reflexivity|]. destruct (Z.eqb_spec r "x"%ch); [rewrite H2 by assumption|]; reflexivity. }
    pose proof (at_fwd (at_fwd1 H)) as H'. rewrite fwd_fwd in H'. apply (IH _ _ s H' Hf Hh). eapply scan_at; [exact HK| |].
    + rewrite (encode_cons_ascii (b := "\"%ch)) by (split; reflexivity || discriminate). rewrite encode_cons, <- app_assoc. reflexivity.
    + rewrite (encode_cons_ascii (b := "\"%ch)) by (split; reflexivity || discriminate). rewrite fwd_fwd, !zlen_cons, !encode_cons, zlen_app. f_equal. lia.
Qed.
Lemma dq_scan hex dstart start segs src rs : dq hex src rs -> forall buf c s, at_ c (encode src ++ """"%ch :: s) -> o_factory (c_opts c) = true -> o_hex (c_opts c) = hex ->
  evals (scanning """"%ch dstart HDouble buf start segs) c segs (with_tok TString (VStr (buf ++ encode rs)) (fwd (zlen (encode src) + 1) c)).
Proof.
  intros HQ buf c s H Hf Hh. eapply dq_run; [exact HQ|exact H|exact Hf|exact Hh|]. pose proof (at_fwd H) as H1.
  eapply ev_eq; [eapply scan_end; [delims|exact H1]| |reflexivity]. rewrite fwd_fwd. reflexivity.
Qed.
