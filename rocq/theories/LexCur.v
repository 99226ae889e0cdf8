(** * LexCur: nextToken walks through a token stream *)
From Verif Require Import Base Float Tokens Ast Ctx Lexer Parser Utf8Facts SpecReader ReaderProof LexBase SpecStrip SpecLex GapProof LexTokens LexPunct Evals LexStrings LexStream.
From Verif Require Export LexTags.
From Coq Require Import Lia ZifyBool.

(** ** Keywords *)
Lemma kw_find_in w l : ~ In w (map lit (map fst l)) -> kw_find w l = None.
Proof.
  induction l as [|[k t] l IH]; intros H; [reflexivity|]. cbn in H |- *. destruct (str_eqb_spec w (lit k)) as [->|_]; [tauto|]. apply IH. tauto.
Qed.
Lemma kw_name w : ~ In w (map lit reserved_words) -> kw_lookup w = None.
Proof.
  intros H. apply kw_find_in. intros HI. apply H. cbn [map fst keywords In] in HI. unfold reserved_words. cbn [map fst reserved In]. intuition.
Qed.
Lemma kw_global w : kw_lookup (lit "::" ++ w) = None.
Proof. apply kw_find_in. intros H. cbn [map fst keywords In] in H. intuition discriminate. Qed.
Lemma name_token_reserved o w t : In (w, t) reserved -> name_token o TIdentifier (lit w) = (t, VStr (lit w)).
Proof. unfold reserved. cbn [In]. intros HI. repeat (destruct HI as [HI|HI]; [injection HI as <- <-; reflexivity|]). destruct HI. Qed.
Lemma word_qualified x : forallb isLowercaseLetter (lit x) = true -> lit x <> [] -> qualified lower (lit x).
Proof.
  intros H Hn. destruct (lit x) as [|h t]; [congruence|]. cbn in H. apply andb_true_iff in H. destruct H as [H1 H2]. apply q_one; [now apply lower_b|].
  rewrite forallb_forall in H2. apply Forall_forall. intros y Hy. left. apply lower_b. auto.
Qed.
Lemma reserved_qualified w t : In (w, t) reserved -> qualified lower (lit w).
Proof.
  unfold reserved. cbn [In]. intros HI.
  repeat (destruct HI as [HI|HI]; [injection HI as <- <-; apply word_qualified; [reflexivity|discriminate]|]). destruct HI.
Qed.

(** ** Where a token stands *)
Definition place (scan : Z) (c0 : ctx) (t : tok) (b' : Z) : Prop :=
  match t with
  | TLp => b' = c_bol c0 /\ exists p, line c0 p /\ p <> c_pos c0
  | TWslp => b' = c_bol c0 /\ line c0 (c_pos c0)
  | TLb => b' = c_bol c0 /\ scan = c_pos c0 /\ c_pos c0 <> 0
  | TListstart => b' = c_bol c0 /\ (scan < c_pos c0 \/ c_pos c0 = 0)
  | TLc => b' = c_bol c0 /\ c_tok c0 <> TQmark
  | TSelc => b' = c_bol c0 /\ c_tok c0 = TQmark
  | TPipe | TPipeEnd => (c_tok c0 = TPipe /\ t = TPipeEnd /\ b' = c_bol c0)
      \/ (c_tok c0 <> TPipe /\ exists r q n, skipWhite false (fwd 1 c0) = Ok (r, q) (with_bol b' (fwd n (fwd 1 c0))) /\ (t = TPipeEnd <-> closes_bar (o_epp (c_opts c0)) r))
  | TDivide => b' = c_bol c0 /\ isRegexpAcceptable (c_tok c0) = false
  | TRegexp => b' = c_bol c0 /\ isRegexpAcceptable (c_tok c0) = true
  | _ => b' = c_bol c0
  end.
Lemma line_skip c p : line c p -> c_nls c = -1 -> exists r n, skipWhite false (with_pos (c_bol c) c) = Ok (r, p) (with_pos n c).
Proof.
  intros (pre & g & s & r & w & HT & HB & HG & HV & ->) Hn.
  assert (H : at_ (with_pos (c_bol c) c) (g ++ s)) by (exists pre; split; [exact HT|exact HB]).
  destruct (gap_skip HG H Hn HV) as (b & Hb & E). cbn in Hb. exists r. rewrite E. cbn [with_pos c_pos]. eexists. rewrite HB. f_equal.
  subst b. reflexivity.
Qed.
Lemma lexes_paren rec scan c0 s t p : at_ c0 (lit "(" ++ s) -> c_nls c0 = -1 -> line c0 p -> t = (if p =? c_pos c0 then TWslp else TLp) ->
  lexes rec scan (lit "(") c0 (lexed t VNil (lit "(") c0).
Proof.
  intros H Hn HL ->.
  match goal with |- lexes _ _ _ _ ?c' => change (lex_paren (c_pos c0) (fwd 1 c0) = Ok tt c') end.
  unfold lex_paren. unfold bind at 1, getPos, ask. unfold bind at 1, modify.
  destruct (line_skip HL Hn) as (r & n & E). change (with_pos (c_bol (fwd 1 c0)) (fwd 1 c0)) with (with_pos (c_bol c0) c0).
  rewrite (bind_ok _ E). cbv beta iota. reflexivity.
Qed.
Lemma closes_bar_b epp r : ((r =? "{"%ch) || (r =? ">"%ch) || (epp && ((r =? "%"%ch) || (r =? "-"%ch)))) = true <-> closes_bar epp r.
Proof.
  unfold closes_bar, one_of. cbn [lit In]. rewrite !orb_true_iff, andb_true_iff, orb_true_iff, !Z.eqb_eq.
  split; [intros [[->| ->]|[-> [->| ->]]]; auto 6|intros [[<-|[<-|[]]]|[-> [<-|[<-|[]]]]]; auto 6].
Qed.
Lemma lexes_pipe_next rec scan c0 s t b r q n : at_ c0 (lit "|" ++ s) -> ascii_head s -> first_byte s <> ">"%ch -> c_tok c0 <> TPipe ->
  skipWhite false (fwd 1 c0) = Ok (r, q) (with_bol b (fwd n (fwd 1 c0))) -> t = TPipe \/ t = TPipeEnd -> (t = TPipeEnd <-> closes_bar (o_epp (c_opts c0)) r) ->
  lexes rec scan (lit "|") c0 (with_bol b (lexed t VNil (lit "|") c0)).
Proof.
  intros H HA HF Hc E Ht Hb.
  match goal with |- lexes _ _ _ _ ?c' => change (lex_pipe (fwd 1 c0) = Ok tt c') end.
  unfold lex_pipe. destruct (ascii_head_rune HA) as (w & Hh). rewrite (bind_ok _ (at_peek (at_fwd1 (c := c0) (b := "|"%ch) H) Hh)). cbv beta iota.
  replace (first_byte s =? ">"%ch) with false by lia. unfold bind at 1, curTok, ask. change (c_tok (fwd 1 c0)) with (c_tok c0).
  destruct (tok_eqb_spec (c_tok c0) TPipe) as [X|_]; [congruence|]. unfold bind at 1, getPos, ask. rewrite (bind_ok _ E). cbv beta iota.
  unfold bind at 1, setPos, modify. unfold bind at 1, option_on, ask. cbn [with_pos with_bol fwd c_opts c_pos]. rewrite <- closes_bar_b in Hb.
  match goal with |- (if ?b then _ else _) _ = _ => destruct b end.
  - rewrite (proj2 Hb eq_refl). reflexivity.
  - destruct Ht as [-> | ->]; [reflexivity|]. specialize (proj1 Hb eq_refl). discriminate.
Qed.
Lemma lexes_pipe_end rec scan c0 s : at_ c0 (lit "|" ++ s) -> ascii_head s -> first_byte s <> ">"%ch -> c_tok c0 = TPipe ->
  lexes rec scan (lit "|") c0 (lexed TPipeEnd VNil (lit "|") c0).
Proof.
  intros H HA HF Hc.
  match goal with |- lexes _ _ _ _ ?c' => change (lex_pipe (fwd 1 c0) = Ok tt c') end.
  unfold lex_pipe. destruct (ascii_head_rune HA) as (w & Hh). rewrite (bind_ok _ (at_peek (at_fwd1 (c := c0) (b := "|"%ch) H) Hh)). cbv beta iota.
  replace (first_byte s =? ">"%ch) with false by lia. unfold bind at 1, curTok, ask. change (c_tok (fwd 1 c0)) with (c_tok c0). rewrite Hc. reflexivity.
Qed.

Definition after (t : tok) (v : tval) (r b : Z) (txt : str) (c0 : ctx) : ctx := with_radix r (with_bol b (lexed t v txt c0)).
Lemma after_lexed t v txt c0 b : b = c_bol c0 -> lexed t v txt c0 = after t v (c_radix c0) b txt c0.
Proof. intros ->. reflexivity. Qed.
Lemma after_radix t v txt c0 r b : b = c_bol c0 -> with_radix r (lexed t v txt c0) = after t v r b txt c0.
Proof. intros ->. reflexivity. Qed.
Lemma name_end_of o m p2 p ks t : quoted m -> stream o m p2 p ks -> ~ (wordchar (first_byte (render ks)) \/ (t = TIdentifier /\ first_byte (render ks) = "-"%ch) \/ double_colon (render ks)) ->
  name_end t (render ks).
Proof.
  intros Hq HS HC. split; [exact (ascii_readable (stream_ascii Hq HS))|]. split; [tauto|]. split; [tauto|]. split; [tauto|].
  intros s' E. apply ascii_readable. refine (stream_colon Hq HS E _). tauto.
Qed.
Lemma plain_place scan c0 t b : plain_punct t = true -> t <> TRegexp -> place scan c0 t b -> b = c_bol c0.
Proof. destruct t; cbn; intros H Hn HP; try discriminate; try exact HP. congruence. Qed.
Lemma number_end_of o m p2 p ks t txt : quoted m -> stream o m p2 p ks -> t = TInteger \/ t = TFloat -> ~ clash t txt (render ks) -> number_end (render ks).
Proof. intros Hq HS Ht HC. split; [exact (stream_ascii Hq HS)|]. destruct Ht; subst; unfold clash in HC; tauto. Qed.
Lemma punct_special t x : In (t, x) punctuation -> plain_punct t = false ->
  x = match t with TLp | TWslp => "("%string | TLb | TListstart => "["%string | TLc | TSelc => "{"%string | TPipe | TPipeEnd => "|"%string | _ => "/"%string end.
Proof. unfold punctuation. cbn [In]. intros HI HP. repeat (destruct HI as [HI|HI]; [injection HI as <- <-; first [discriminate HP|reflexivity]|]). destruct HI. Qed.
Lemma token_lexes o m p2 p ks t v radix txt scan c0 b' :
  quoted m -> token_text o t v radix txt -> t <> TEnd -> c_opts c0 = o -> o_factory o = true -> c_nls c0 = -1 ->
  stream o m p2 p ks -> ~ clash t txt (render ks) -> at_ c0 (txt ++ render ks) -> place scan c0 t b' ->
  exists r, ev_lexes scan txt c0 (after t v r b' txt c0) /\ (t = TInteger -> r = radix).
Proof.
  intros Hq HT Hn Ho Hf Hl HS HC H HP. pose proof (stream_ascii Hq HS) as HA.
  assert (K : forall txt t v r, (forall rec, lexes rec scan txt c0 (with_radix r (lexed t v txt c0))) -> b' = c_bol c0 -> (t = TInteger -> r = radix) ->
    exists r, ev_lexes scan txt c0 (after t v r b' txt c0) /\ (t = TInteger -> r = radix)).
  { intros x u w r L Hb Hr. exists r. split; [|exact Hr]. apply ev_lexes_all. rewrite <- (after_radix _ _ _ _ Hb). exact L. }
  assert (K0 : forall txt t v, (forall rec, lexes rec scan txt c0 (lexed t v txt c0)) -> b' = c_bol c0 -> t <> TInteger ->
    exists r, ev_lexes scan txt c0 (after t v r b' txt c0) /\ (t = TInteger -> r = radix)).
  { intros x u w L Hb Hr. exists (c_radix c0). split; [|congruence]. apply ev_lexes_all. rewrite <- (after_lexed _ _ _ Hb). exact L. }
  assert (K1 : forall txt t v, ev_lexes scan txt c0 (lexed t v txt c0) -> b' = c_bol c0 -> t <> TInteger ->
    exists r, ev_lexes scan txt c0 (after t v r b' txt c0) /\ (t = TInteger -> r = radix)).
  { intros x u w L Hb Hr. exists (c_radix c0). split; [|congruence]. rewrite <- (after_lexed _ _ _ Hb). exact L. }
  destruct HT as [rdx|t x rdx HI|w t rdx HI|rdx|rdx|rdx|rdx|w rdx HQ HN|w rdx HQ|w rdx HQ|w rdx HQ|w rdx HQ|w rdx HQ|ds rdx Hd HF HV|ds Hd HF HV| |ds Hd HF HV|x ds cs Hx Hd HF HV|txt rdx HF|src rs rdx HQ|src rs rdx HQ|rs rdx Hb HF HN|src rs rdx HR HH].
  - congruence.
  - assert (Hr : t <> TRegexp /\ t <> TInteger). { split; intros ->; unfold punctuation in HI; cbn [In] in HI; repeat (destruct HI as [HI|HI]; [discriminate|]); destruct HI. }
    destruct Hr as [Hr Hr']. destruct (plain_punct t) eqn:Ep.
    + apply K0; [|exact (plain_place Ep Hr HP)|exact Hr']. intros rec. eapply lexes_punct; eauto.
    + rewrite (punct_special HI Ep) in *. destruct t; try discriminate Ep; cbn [place] in HP.
      all: cbn [clash] in HC; unfold one_of in HC; cbn [lit In] in HC.
      * destruct HP as [Hb Hp]. apply K0; [|exact Hb|discriminate]. intros rec.
        match goal with |- lexes _ _ _ _ ?c' => change ((t <- curTok ;; if isRegexpAcceptable t then found <- consumeRegexp rec ;; (if found : bool then ret tt else setToken TDivide) else setToken TDivide) (fwd 1 c0) = Ok tt c') end.
        unfold bind at 1, curTok, ask. change (c_tok (fwd 1 c0)) with (c_tok c0). rewrite Hp. reflexivity.
      * destruct HP as [Hb (q & HL & Hlq)]. apply K0; [|exact Hb|discriminate]. intros rec. eapply lexes_paren; eauto. replace (q =? c_pos c0) with false by lia. reflexivity.
      * destruct HP as [Hb HL]. apply K0; [|exact Hb|discriminate]. intros rec. eapply lexes_paren; eauto. replace (c_pos c0 =? c_pos c0) with true by lia. reflexivity.
      * destruct HP as [Hb [E1 E2]]. apply K0; [|exact Hb|discriminate]. intros rec.
        match goal with |- lexes _ _ _ _ ?c' => change (setToken (if (scan <? c_pos c0) || (c_pos c0 =? 0) then TListstart else TLb) (fwd 1 c0) = Ok tt c') end.
        replace ((scan <? c_pos c0) || (c_pos c0 =? 0)) with false by lia. reflexivity.
      * destruct HP as [Hb E1]. apply K0; [|exact Hb|discriminate]. intros rec.
        match goal with |- lexes _ _ _ _ ?c' => change (setToken (if (scan <? c_pos c0) || (c_pos c0 =? 0) then TListstart else TLb) (fwd 1 c0) = Ok tt c') end.
        replace ((scan <? c_pos c0) || (c_pos c0 =? 0)) with true by lia. reflexivity.
      * destruct HP as [Hb E1]. apply K0; [|exact Hb|discriminate]. intros rec.
        match goal with |- lexes _ _ _ _ ?c' => change ((t <- curTok ;; setToken (if tok_eqb t TQmark then TSelc else TLc)) (fwd 1 c0) = Ok tt c') end.
        unfold bind at 1, curTok, ask. change (c_tok (fwd 1 c0)) with (c_tok c0). destruct (tok_eqb_spec (c_tok c0) TQmark); [congruence|]. reflexivity.
      * destruct HP as [Hb E1]. apply K0; [|exact Hb|discriminate]. intros rec.
        match goal with |- lexes _ _ _ _ ?c' => change ((t <- curTok ;; setToken (if tok_eqb t TQmark then TSelc else TLc)) (fwd 1 c0) = Ok tt c') end.
        unfold bind at 1, curTok, ask. change (c_tok (fwd 1 c0)) with (c_tok c0). rewrite E1. reflexivity.
      * destruct HP as [(_ & X & _)|(E1 & r & q & n & E2 & E3)]; [discriminate|]. exists (c_radix c0). split; [|discriminate]. apply ev_lexes_all. intros rec.
        apply (@lexes_pipe_next rec scan c0 (render ks) TPipe b' r q n); auto.
      * destruct HP as [(E1 & _ & Hb)|(E1 & r & q & n & E2 & E3)].
        -- apply K0; [|exact Hb|discriminate]. intros rec. eapply lexes_pipe_end; eauto.
        -- exists (c_radix c0). split; [|discriminate]. apply ev_lexes_all. intros rec.
           apply (@lexes_pipe_next rec scan c0 (render ks) TPipeEnd b' r q n); auto.
  - assert (Hr : t <> TInteger). { intros ->. unfold reserved in HI. cbn [In] in HI; repeat (destruct HI as [HI|HI]; [discriminate|]); destruct HI. }
    assert (Hb : b' = c_bol c0). { unfold reserved in HI. cbn [In] in HI; repeat (destruct HI as [HI|HI]; [injection HI as <- <-; exact HP|]); destruct HI. }
    apply K0; [|exact Hb|exact Hr]. intros rec.
    assert (HE : name_end TIdentifier (render ks)).
    { eapply (name_end_of Hq); [exact HS|]. intros X. apply HC. unfold reserved in HI. cbn [In] in HI; repeat (destruct HI as [HI|HI]; [injection HI as <- <-; unfold clash; tauto|]); destruct HI. }
    pose proof (lexes_name rec scan H (reserved_qualified HI) HE) as L. rewrite (name_token_reserved (c_opts c0) HI) in L. exact L.
  - assert (HE : name_end TIdentifier (render ks)) by (eapply (name_end_of Hq); [exact HS|]; unfold clash in HC; tauto).
    apply K0; [|exact HP|discriminate]. intros rec. exact (lexes_name rec scan H (@word_qualified "true" eq_refl ltac:(discriminate)) HE).
  - assert (HE : name_end TIdentifier (render ks)) by (eapply (name_end_of Hq); [exact HS|]; unfold clash in HC; tauto).
    apply K0; [|exact HP|discriminate]. intros rec. exact (lexes_name rec scan H (@word_qualified "false" eq_refl ltac:(discriminate)) HE).
  - assert (HE : name_end TIdentifier (render ks)) by (eapply (name_end_of Hq); [exact HS|]; unfold clash in HC; tauto).
    apply K0; [|exact HP|discriminate]. intros rec. exact (lexes_name rec scan H (@word_qualified "default" eq_refl ltac:(discriminate)) HE).
  - assert (HE : name_end TIdentifier (render ks)) by (eapply (name_end_of Hq); [exact HS|]; destruct (o_tasks o); unfold clash in HC; tauto).
    apply K0; [|destruct (o_tasks o); exact HP|destruct (o_tasks o); discriminate]. intros rec.
    pose proof (lexes_name rec scan H (@word_qualified "plan" eq_refl ltac:(discriminate)) HE) as L.
    assert (Q : name_token (c_opts c0) TIdentifier (lit "plan") = (if o_tasks o then TPlan else TIdentifier, VStr (lit "plan"))) by (rewrite Ho; reflexivity).
    rewrite Q in L. exact L.
  - assert (HE : name_end TIdentifier (render ks)) by (eapply (name_end_of Hq); [exact HS|]; unfold clash in HC; tauto).
    apply K0; [|exact HP|discriminate]. intros rec. pose proof (lexes_name rec scan H HQ HE) as L. unfold name_token in L. rewrite (kw_name HN) in L. exact L.
  - assert (HE : name_end TIdentifier (render ks)) by (eapply (name_end_of Hq); [exact HS|]; unfold clash in HC; tauto).
    apply K0; [|exact HP|discriminate]. intros rec. pose proof (lexes_global rec scan H (or_introl eq_refl) HQ HE) as L. unfold name_token in L. rewrite kw_global in L. exact L.
  - assert (HE : name_end TTypeName (render ks)) by (eapply (name_end_of Hq); [exact HS|]; unfold clash in HC; intuition discriminate).
    apply K0; [|exact HP|discriminate]. intros rec. exact (lexes_type rec scan H HQ HE).
  - assert (HE : name_end TTypeName (render ks)) by (eapply (name_end_of Hq); [exact HS|]; unfold clash in HC; intuition discriminate).
    apply K0; [|exact HP|discriminate]. intros rec. exact (lexes_global rec scan H (or_intror eq_refl) HQ HE).
  - assert (HE : name_end TVariable (render ks)).
    { eapply (name_end_of Hq); [exact HS|]. destruct (qualified_head HQ) as (h & x & -> & Hlw). unfold clash in HC. cbn [skipn first_byte] in HC.
      replace (isDecimalDigit h) with false in HC by (unfold lower, isDecimalDigit, in_range in *; lia). intuition discriminate. }
    apply K0; [|exact HP|discriminate]. intros rec. exact (lexes_var rec scan H HQ HE).
  - assert (HE : name_end TVariable (render ks)) by (eapply (name_end_of Hq); [exact HS|]; assert (HC' : ~ (wordchar (first_byte (render ks)) \/ double_colon (render ks))) by exact HC; intuition discriminate).
    apply K0; [|exact HP|discriminate]. intros rec. exact (lexes_global_var rec scan H HQ HE).
  - apply K0; [|exact HP|discriminate]. intros rec. destruct ds as [|d ds]; [congruence|]. unfold clash in HC. cbn [skipn decimals map first_byte] in HC.
    inversion HF; subst. replace (isDecimalDigit (48 + d)) with true in HC by (unfold isDecimalDigit, in_range in *; lia). eapply lexes_numeric_var; eauto.
    intros X Y. apply HC. right. split; [exact Y|]. destruct ds; [|rewrite !zlen_cons in X; pose proof (zlen_nonneg ds); lia]. eexists. reflexivity.
  - pose proof (number_end_of Hq HS (or_introl eq_refl) HC) as HE. apply K with (r := 10); [|exact HP|reflexivity]. intros rec.
    destruct ds as [|d ds]; [cbn in Hd; lia|]. cbn [hd] in Hd. pose proof HF as HF0. inversion HF; subst.
    rewrite <- (parse_int_decimals HF0 ltac:(discriminate) HV). change (decimals (d :: ds)) with ((48 + d) :: decimals ds) in *.
    cbn [clash] in HC. eapply lex_decimal; [exact H|lia|now apply decimals_digits|exact HE| |].
    + intros X. apply HC. auto.
    + intros X. destruct ds; [|discriminate X]. split; intros Y; apply HC; right; right; rewrite Y; (split; [cbn; auto|]); eexists; (split; [reflexivity|lia]).
  - pose proof (number_end_of Hq HS (or_introl eq_refl) HC) as HE. apply K with (r := 10); [|exact HP|reflexivity]. intros rec. eapply lex_zero_alone; eauto. intros X. apply HC. cbn [clash]. auto.
  - pose proof (number_end_of Hq HS (or_introl eq_refl) HC) as HE. apply K with (r := 8); [|exact HP|reflexivity]. intros rec.
    assert (HF2 : Forall2 hex_char ds (decimals ds)) by (apply decimals_hex; eapply Forall_impl; [|exact HF]; cbn; intros; lia).
    rewrite <- (@parse_int_value 8 64 ds (decimals ds)); auto; [|lia|eapply Forall_impl; [|exact HF]; cbn; intros; lia].
    eapply lex_octal; eauto; [destruct ds; [congruence|discriminate]|]. unfold decimals. clear -HF. induction HF; constructor; auto. unfold isOctalDigit, in_range. lia.
  - pose proof (number_end_of Hq HS (or_introl eq_refl) HC) as HE. apply K with (r := 16); [|exact HP|reflexivity]. intros rec.
    rewrite <- (@parse_int_value 16 64 ds cs); auto; [|lia|].
    + eapply lex_hex; eauto; [destruct HF; congruence|]. clear -HF. induction HF as [|? ? ? ? Hc]; constructor; auto. now apply hex_char_ascii in Hc.
    + clear -HF. induction HF as [|? ? ? ? Hc]; constructor; auto. unfold hex_char in Hc. lia.
  - pose proof (number_end_of Hq HS (or_intror eq_refl) HC) as HE. destruct (lex_float scan H HF HE) as (r & L). apply K with (r := r); [exact L|exact HP|discriminate].
  - apply K1; [|exact HP|discriminate]. eapply lexes_single; eauto.
  - apply K1; [|exact HP|discriminate]. eapply lexes_double; eauto; now rewrite Ho.
  - apply K0; [|exact HP|discriminate]. intros rec. eapply lexes_backtick; eauto. now rewrite Ho.
  - destruct HP as [Hb Hp]. apply K1; [|exact Hb|discriminate]. eapply lexes_regexp; eauto.
Qed.

(** ** The state at a token *)
(** values: trees are compared without positions *)
Definition same_val (v w : tval) : Prop := match w with VExpr e => exists e', v = VExpr e' /\ strip e' = e | _ => v = w end.
(** the lexer's token *)
Definition shown (m : mode) (t : tok) : tok := match t with TEnd => if embedded m then TRc else TEnd | _ => t end.
Lemma shown_not m t : t <> TEnd -> shown m t = t.
Proof. destruct t; try reflexivity. congruence. Qed.
(** the lexer reads the strings of [m] as it should *)
Definition lawful (o : opts) (m : mode) : Prop := forall e txt, strings m e txt -> (exists s, txt = """"%ch :: s) /\
  forall c0 s q scan, c_opts c0 = o -> c_nls c0 = -1 -> at_ c0 (txt ++ s) -> line c0 q -> q <= c_pos c0 ->
  exists c1 e', ev_lexes scan txt c0 c1 /\ c_tok c1 = TConcatenatedString /\ c_val c1 = VExpr e' /\ strip e' = e /\ c_pos c1 = c_pos c0 + zlen txt
    /\ c_text c1 = c_text c0 /\ c_names c1 = c_names c0 /\ c_defs c1 = c_defs c0 /\ c_opts c1 = o /\ c_nls c1 = -1
    /\ exists q', line c1 q' /\ q' < c_pos c1.
Lemma lawful_quoted o m : lawful o m -> quoted m.
Proof. intros H e txt HS. exact (proj1 (H e txt HS)). Qed.
(** tokens that do not depend on the one before *)
Definition free (t : tok) : Prop := ~ In t [TLc; TSelc; TRegexp; TDivide; TPipe; TPipeEnd].
Section Cur.
Variables (o : opts) (m : mode).
Hypothesis Hfac : o_factory o = true.
Hypothesis Hm : lawful o m.
Let Hqm : quoted m := lawful_quoted Hm.
(** not at the end of the source *)
Definition seen (k : tk) : Prop := k_txt k <> [].
(** where the parser drops the gap after the token [k] *)
Definition dropping (prev : option tok) (k : tk) : Prop := prev = None \/ prev = Some TLc \/ prev = Some TPipeEnd /\ k_tok k <> TLc.
(** [cur ns ks c]: the current token is the first of [ks] and the rest of them is
    still to be read; [ns] are the names of the enclosing classes *)
Definition curp (prev : option tok) (ns : list str) (ks : list tk) (c : ctx) : Prop :=
  match ks with
  | [] => False
  | k :: rest =>
    c_opts c = o /\ c_nls c = -1 /\ c_tok c = shown m (k_tok k) /\ same_val (c_val c) (k_val k) /\ (k_tok k = TInteger -> c_radix c = k_radix k) /\ c_names c = ns /\
    stream o m prev (Some (k_tok k)) rest /\
    exists pre, c_text c = pre ++ k_txt k ++ render rest /\ (k_tok k = TTypeName -> c_tsp c = zlen pre) /\
    match rest with
    | [] => if embedded m then c_pos c = zlen pre + 1 /\ exists q, line c q /\ q < c_pos c else c_pos c = zlen (c_text c)
    | k2 :: _ => k_tok k <> TEnd /\ k_txt k <> [] /\ exists sk : bool,
      c_pos c = zlen pre + zlen (k_txt k) + (if sk then zlen (k_gap k2) else 0) /\ (sk = true -> dropping prev k) /\
      (seen k2 -> if k_brk k2 then sk = true -> line c (c_pos c) else exists q, line c q /\ q < zlen pre + zlen (k_txt k))
    end
  end.
Definition cur (ns : list str) (ks : list tk) (c : ctx) : Prop := exists prev, curp prev ns ks c.
Definition ptok (p : option tok) : tok := match p with Some t => t | None => TEnd end.
(** the first thing on the line of the token [k] that comes after [g] *)
Definition lines (p : option tok) (k : tk) (brk : bool) (g : str) (c : ctx) : Prop :=
  (brk = true /\ (k_brk k = true \/ p = None))
  \/ (brk = false /\ line c (c_pos c + zlen g) /\ (k_brk k = true \/ p = None))
  \/ (brk = false /\ (exists q, line c q /\ q < c_pos c + zlen g) /\ k_brk k = false /\ p <> None).
Lemma ends_operand_b t : isRegexpAcceptable t = false <-> ends_operand t.
Proof. unfold ends_operand. split; [destruct t; cbn; intros; try discriminate; intuition|]. cbn [In]. intros H. repeat (destruct H as [<-|H]; [reflexivity|]). destruct H. Qed.
Lemma stream_cons p2 p k rest : stream o m p2 p (k :: rest) ->
    written o m (k_tok k) (k_val k) (k_radix k) (k_txt k)
    /\ (gap (k_brk k) (k_gap k) \/ k_txt k = [] /\ end_gap (k_gap k))
    /\ situated (o_epp o) p2 p (k_brk k) (glued k) (look rest) (k_tok k)
    /\ ~ clash (k_tok k) (k_txt k) (render rest)
    /\ (k_tok k = TEnd -> rest = [])
    /\ stream o m p (Some (k_tok k)) rest.
Proof.
  cbn [stream]. intros (H1 & H2 & H3 & H4 & _ & H5). split; [exact H1|]. split; [|tauto]. destruct (embedded m); [left; destruct H2 as [H2 ->]; exact H2|].
  destruct H2 as [H2|[H2 H6]]; auto.
Qed.
Lemma stream_text p2 p k rest : stream o m p2 p (k :: rest) -> k_tok k = TRenderString -> text_token (k_txt k) (render rest) (k_val k).
Proof. cbn [stream]. tauto. Qed.
Lemma unseen_end p2 p k rest : stream o m p2 p (k :: rest) -> k_txt k = [] -> k_tok k = TEnd /\ k_val k = VNil /\ rest = [] /\ embedded m = false /\ end_gap (k_gap k).
Proof.
  intros HS E. apply stream_cons in HS. destruct HS as (HT & HG & _ & _ & HE & _). rewrite E in HT. destruct (token_nil Hqm HT) as (E1 & E2 & E3). repeat (split; auto).
  destruct HG as [HG|[_ HG]]; [econstructor; exact HG|exact HG].
Qed.
Lemma seen_gap p2 p k rest : stream o m p2 p (k :: rest) -> seen k -> gap (k_brk k) (k_gap k).
Proof. intros HS Hs. apply stream_cons in HS. destruct HS as (_ & [HG|[X _]] & _); [exact HG|destruct (Hs X)]. Qed.
Lemma stream_brk p2 p k rest : stream o m p2 p (k :: rest) -> embedded m = true -> k_brk k = false.
Proof. cbn [stream]. intros (H1 & H2 & H3) E. rewrite E in H2. tauto. Qed.
Lemma render_cons k rest : render (k :: rest) = k_gap k ++ k_txt k ++ render rest.
Proof. cbn [render flat_map]. fold (render rest). now rewrite app_assoc. Qed.
(** looking beyond the next gap *)
Lemma stream_visible p2 p k rest : stream o m p2 p (k :: rest) -> seen k -> visible (k_txt k ++ render rest) (first_byte (k_txt k)) 1.
Proof.
  intros HS Hs. apply stream_cons in HS. destruct HS as (HT & HG & _ & HC & HE & HS). exact (token_visible Hqm HT Hs (stream_ascii Hqm HS) HC).
Qed.
Lemma look_ahead p2 p rest c : stream o m p2 p rest -> p <> Some TEnd -> at_ c (render rest) -> c_nls c = -1 ->
  exists q n b, skipWhite false c = Ok (look rest, q) (with_bol b (fwd n c)) /\ forall k2 r, rest = k2 :: r -> q = c_pos c + zlen (k_gap k2) /\ (seen k2 -> bol_after c (k_brk k2) (k_gap k2) b).
Proof.
  intros HS Hp H Hn. destruct rest as [|k2 r]; [cbn in HS; congruence|]. pose proof (stream_visible HS) as HV. rewrite render_cons in H. cbn [look].
  destruct (k_txt k2) as [|b0 x0] eqn:Et.
  - destruct (unseen_end HS Et) as (E1 & E2 & -> & Em & HG). cbn [render flat_map app] in H. rewrite app_nil_r in H.
    destruct (end_gap_skip HG H Hn) as (b & Es). eexists _, _, b. split; [exact Es|]. intros k r' Er. injection Er as <- <-. split; [reflexivity|]. intros X. destruct (X Et).
  - assert (Hs : seen k2) by (unfold seen; rewrite Et; discriminate). rewrite <- Et in *. pose proof (seen_gap HS Hs) as HG.
    destruct (gap_skip HG H Hn (HV Hs)) as (b & Hb & Es). eexists _, _, b. split; [exact Es|]. intros k r' Er. injection Er as <- <-. auto.
Qed.
(** ** Tokens after tags *)
Inductive tagged : tok -> tval -> Z -> str -> Prop :=
| tg_token t v r f pre x : pre <> [] -> lead f false pre x -> token_text o t v r x -> fixed t v -> tagged t v r (pre ++ x)
| tg_render r f pre : lead f true pre (lit "<%=") -> tagged TRenderExpr VNil r (pre ++ lit "<%=")
| tg_text v r b x : mark b -> tagged TRenderString v r (b :: x).
Lemma written_cases t v r txt : written o m t v r txt -> t <> TEnd ->
  token_text o t v r txt \/ (exists e, t = TConcatenatedString /\ v = VExpr e /\ strings m e txt) \/ o_epp o = true /\ embedded m = false /\ tagged t v r txt.
Proof.
  intros [t' v' r' x H HE|e r' x H|r' x H|t' v' r' f pre x He Hm' Hp Hl Ht Hf|r' f pre He Hm' Hl|v' r' b x He Hm' Hb|r' f pre He Hm' Hp Hl] Hn; [auto|right; left; eauto|congruence| | | |congruence].
  all: right; right; split; [exact He|]; split; [exact Hm'|]. - econstructor; eassumption. - econstructor; eassumption. - econstructor; exact Hb.
Qed.
Lemma lead_second f t' pre x : lead f t' pre x -> pre <> [] -> exists b1 b2 y, pre = b1 :: b2 :: y /\ isDecimalDigit b2 = false.
Proof.
  intros [t0 s0|t0 dash brk g x0 s0 Hd Hg Hl|t0 cl src x0 s0 Hc Hs Ht Hl] Hn; [congruence|eexists _, _, _; split; reflexivity|].
  destruct Hc as [->|(b & _ & [->|[-> _]])]; eexists _, _, _; split; reflexivity.
Qed.
Lemma var_second v r x : token_text o TVariable v r x -> (forall n, v <> VInt n) -> isDecimalDigit (first_byte (skipn 1 x)) = false.
Proof.
  intros H Hv. inversion H as [ | ? ? ? HI | ? ? ? HI | | | | | | | | |w rd HQ|w rd HQ| | | | | | | | | | ]; subst; try reflexivity; try (exfalso; eapply Hv; reflexivity).
  - unfold punctuation in HI. cbn [In] in HI. repeat (destruct HI as [HI|HI]; [discriminate|]). destruct HI.
  - unfold reserved in HI. cbn [In] in HI. repeat (destruct HI as [HI|HI]; [discriminate|]). destruct HI.
  - destruct (qualified_head HQ) as (h & y & -> & Hh). cbn [skipn first_byte]. unfold lower, isDecimalDigit, in_range in *. lia.
Qed.
Lemma clash_tagged t v r f pre x s : pre <> [] -> lead f false pre x -> token_text o t v r x -> fixed t v -> ~ clash t (pre ++ x) s -> ~ clash t x s.
Proof.
  intros Hp Hl HT [Hf Hv]. destruct (lead_second Hl Hp) as (b1 & b2 & y & -> & Hb). destruct t; try (intros X; exact X).
  - exfalso. apply Hf. cbn. tauto.
  - unfold clash. cbn [app skipn first_byte]. rewrite Hb. pose proof (var_second HT Hv) as E. cbn [skipn] in E. rewrite E. exact (fun X => X).
Qed.
Lemma token_next P p2 p t v r f pre x rest c g brk : pre <> [] -> lead f false pre x -> token_text o t v r x -> fixed t v -> o_epp o = true -> c_opts c = o -> c_nls c = -1 -> gap brk g ->
  at_ c (g ++ (pre ++ x) ++ render rest) -> stream o m p2 p rest -> ~ clash t (pre ++ x) (render rest) -> (brk = false -> near P (c_pos c + zlen g + zlen (pre ++ x) - 1) c) ->
  exists c1, ev_next c c1 /\ kin c c1 /\ c_tok c1 = t /\ c_val c1 = v /\ c_pos c1 = c_pos c + zlen g + zlen (pre ++ x) /\ near P (c_pos c1 - 1) c1.
Proof.
  intros Hp Hl HT Hf He Ho Hn HG H HS HC HL. assert (He' : o_epp (c_opts c) = true) by congruence.
  assert (E : t <> TEnd) by (intros ->; destruct Hf as [Hf _]; apply Hf; left; reflexivity).
  destruct (text_starts HT E) as (b0 & x0 & Ex & Hb0 & _). assert (Hlx : 0 < zlen x) by (rewrite Ex, zlen_cons; pose proof (zlen_nonneg x0); lia).
  pose proof (clash_tagged Hp Hl HT Hf HC) as HC'. rewrite <- app_assoc in H. rewrite zlen_app in *.
  assert (HA : ascii_head (x ++ render rest)) by (rewrite Ex; right; eexists _, _; split; [reflexivity|lia]).
  assert (Hl' : lead f false pre (x ++ render rest)) by (apply lead_more; [exact Hl|rewrite Ex; discriminate|discriminate]).
  set (E0 := c_pos c + zlen g + (zlen pre + zlen x) - 1) in *.
  assert (HE0 : c_pos c + zlen g + zlen pre <= E0) by (unfold E0; lia).
  destruct (lead_next (P := P) (E := E0) Hl' HA ltac:(rewrite Ex; discriminate) HG H Hn He' HE0 HL) as (c' & brk' & g' & A1 & A2 & A3 & A4 & A5 & A6).
  destruct A3 as (K1 & K2 & K3 & K4 & K5). pose proof (text_visible HT E (stream_ascii Hqm HS) HC') as HV.
  destruct (next_lex A1 A2 ltac:(congruence) HV) as (b & Hb & H0 & HE). pose proof (@token_line P _ _ _ _ _ _ _ E0 A1 A2 HV Hb ltac:(lia) A5) as HN1. set (c0 := token_at g' b c') in *.
  assert (Ho0 : c_opts c0 = o) by (change (c_opts c0) with (c_opts c'); congruence). assert (Hn0 : c_nls c0 = -1) by (change (c_nls c0) with (c_nls c'); congruence).
  assert (HP : place (c_pos c') c0 t b). { destruct Hf as [Hf _]. destruct t; try reflexivity; exfalso; apply Hf; cbn; tauto. }
  destruct (token_lexes Hqm HT E (c0 := c0) Ho0 Hfac Hn0 HS HC' H0 HP) as (rdx & HEv & _).
  eexists. split; [apply A6, HE, HEv|]. split; [repeat split; assumption|]. split; [reflexivity|]. split; [reflexivity|].
  assert (Q : c_pos c0 + zlen x = c_pos c + zlen g + (zlen pre + zlen x)) by (unfold c0, token_at; cbn [fwd with_pos with_tsp with_bol c_pos]; lia).
  split; [exact Q|]. intros XP. destruct (HN1 XP) as (q & Hq & Hle). exists q. split; [exact (@line_eq c0 _ _ Hq eq_refl eq_refl)|]. unfold after, lexed. cbn [with_radix with_bol with_tok fwd with_pos c_pos]. unfold E0 in Hle. lia.
Qed.
Lemma tagged_next p2 p t v r txt rest c g brk : tagged t v r txt -> o_epp o = true -> c_opts c = o -> c_nls c = -1 -> gap brk g -> at_ c (g ++ txt ++ render rest) ->
  stream o m p2 p rest -> ~ clash t txt (render rest) -> (t = TRenderString -> text_token txt (render rest) v) ->
  (brk = false -> exists q, line c q /\ q < c_pos c + zlen g + zlen txt) ->
  exists c1, ev_next c c1 /\ kin c c1 /\ c_tok c1 = t /\ c_val c1 = v /\ c_pos c1 = c_pos c + zlen g + zlen txt /\ exists q, line c1 q /\ q < c_pos c1.
Proof.
  intros HT He Ho Hn HG H HS HC HX HL. assert (He' : o_epp (c_opts c) = true) by congruence. revert H HC HX HL.
  destruct HT as [t v r f pre x Hp Hl HT Hf|r f pre Hl|v r b x Hb]; intros H HC HX HL.
  - destruct (@token_next True p2 p t v r f pre x rest c g brk) as (c1 & K1 & K2 & K3 & K4 & K5 & K6); try assumption; [intros Eb _; destruct (HL Eb) as (q & Hq & Hle); exists q; split; [exact Hq|lia]|].
    exists c1. repeat (split; [assumption|]). destruct (K6 Logic.I) as (q & Hq & Hle). exists q. split; [exact Hq|lia].
  - exact (render_next Hl HG H Hn He' HL).
  - exact (text_next (HX eq_refl) HG H Hn He' HL).
Qed.
Lemma pipe_text t v r txt : t = TPipe \/ t = TPipeEnd -> written o m t v r txt -> txt = lit "|".
Proof.
  intros Ht HW. destruct (written_cases HW ltac:(destruct Ht; subst; discriminate)) as [HT|[(e & X & _)|(_ & _ & HT)]]; [|destruct Ht; congruence|].
  - destruct HT; try (destruct Ht; discriminate).
    + rewrite (punct_special H); [destruct Ht; subst; reflexivity|destruct Ht; subst; reflexivity].
    + unfold reserved in H. cbn [In] in H. repeat (destruct H as [H|H]; [injection H as <- <-; destruct Ht; discriminate|]). destruct H.
    + destruct (o_tasks o), Ht; discriminate.
  - exfalso. destruct HT as [t v r f pre x _ _ _ [Hf _]| |]; [|destruct Ht; discriminate|destruct Ht; discriminate]. apply Hf. destruct Ht; subst; cbn; tauto.
Qed.
Lemma lex_token_end rec scan start c : lex_token rec scan start 0 c = setToken TEnd c.
Proof. reflexivity. Qed.
Lemma lex_step ns p2 p k rest c g brk : c_opts c = o -> c_nls c = -1 -> c_names c = ns -> c_tok c = ptok p \/ free (k_tok k) ->
  stream o m p2 p (k :: rest) -> at_ c (g ++ k_txt k ++ render rest) -> gap brk g \/ k_txt k = [] /\ end_gap g ->
  (k_tok k = TLb -> g = [] /\ c_pos c <> 0) -> (k_tok k = TListstart -> g <> [] \/ c_pos c = 0) ->
  (seen k -> lines p k brk g c \/ (brk = false /\ line c (c_pos c + zlen g) /\ k_tok k <> TLp)) ->
  exists c1, evals (fun r => r unit FNextToken) c tt c1 /\ curp p ns (k :: rest) c1 /\ c_defs c1 = c_defs c /\ c_text c1 = c_text c
    /\ (In (k_tok k) [TFarrow; TParrow] -> brk = false -> c_bol c1 = c_bol c).
Proof.
  intros Ho Hn Hns Htok HS H HG HLb HLs HL. pose proof (stream_visible HS) as HV. pose proof (stream_brk HS) as HBr. pose proof (stream_text HS) as HTX.
  apply stream_cons in HS. destruct HS as (HT & _ & HSit & HC & HE & HS).
  destruct (tok_eqb_spec (k_tok k) TEnd) as [E|E].
  { specialize (HE E). subst rest. rewrite E in HT. destruct (token_end_inv HT) as [E2 [[Em E1]|[Em (s & E1)]]].
    - cbn [render flat_map app] in H. rewrite app_nil_r in H.
      assert (K : exists c1, ev_next c c1 /\ kin c c1 /\ c_tok c1 = TEnd /\ c_val c1 = VNil /\ c_pos c1 = c_pos c + zlen (g ++ k_txt k)).
      { destruct E1 as [E1|(He & E1 & f & Hl)].
        - rewrite E1, app_nil_r in *. apply next_end; [|exact H|exact Hn]. destruct HG as [HG|(_ & HG)]; [econstructor; exact HG|exact HG].
        - destruct HG as [HG|[X _]]; [|congruence]. rewrite zlen_app, Z.add_assoc. eapply lead_end; [exact Hl|reflexivity|reflexivity|exact HG|exact H|exact Hn|congruence]. }
      destruct K as (c1 & K1 & (K2 & K3 & K4 & K5 & K6) & K7 & K8 & K9). exists c1. split; [exact K1|]. split; [|split; [exact K6|split; [exact K2|intros X; rewrite E in X; cbn in X; intuition congruence]]].
      cbn [curp]. rewrite E, E2, Em. cbn [shown same_val]. rewrite Em.
      split; [congruence|]. split; [congruence|]. split; [exact K7|]. split; [exact K8|]. split; [discriminate|]. split; [congruence|]. split; [reflexivity|].
      destruct H as (pre & HTx & HPx). exists (pre ++ g). cbn [render flat_map]. rewrite app_nil_r. split; [rewrite K2, HTx, <- !app_assoc; reflexivity|]. split; [discriminate|].
      rewrite K9, K2, HTx, !zlen_app. lia.
    - rewrite E1 in H, HV. cbn [render flat_map app] in H, HV. rewrite app_nil_r in H, HV. assert (Hs : seen k) by (unfold seen; rewrite E1; discriminate). specialize (HV Hs). specialize (HL Hs).
      destruct HG as [HG|(X & _)]; [|congruence]. destruct (gap_skip HG H Hn HV) as (b & Hb & Es). eexists. split.
      + apply ev_rec. apply ev_all. intros r. cbn [body]. unfold nextToken_body. unfold bind at 1, getPos, ask. rewrite (bind_ok _ Es). unfold bind at 1, modify. reflexivity.
      + cbn [curp]. rewrite E, E2, Em. repeat split; cbn [shown same_val with_tok with_tsp with_bol fwd with_pos c_opts c_nls c_tok c_val c_radix c_names c_defs c_text c_tsp c_bol c_pos]; auto; try congruence.
        * now rewrite Em.
        * destruct H as (pre & HTx & HPx). exists (pre ++ g). cbn [with_tok with_tsp with_bol fwd with_pos c_text c_tsp c_pos]. rewrite E1. cbn [render flat_map]. rewrite app_nil_r.
          split; [rewrite HTx, <- !app_assoc; reflexivity|]. split; [discriminate|]. split; [rewrite zlen_app; lia|].
          destruct HL as [[[-> Hk]|[(-> & Hl & Hk)|(-> & (q & Hl & Hq) & Hk & Hk')]]|(-> & Hl & Hk)].
          4: { exists (c_pos c + zlen g). split; [|lia]. eapply line_eq; [exact Hl|reflexivity|cbn; exact Hb]. }
          -- exists (c_pos c + zlen g). split; [|lia]. eapply line_eq; [eapply (bol_line (c := c)); [exists pre; split; [exact HTx|exact HPx]|exact HG|exact HV|exact Hb|reflexivity]|reflexivity|reflexivity].
          -- exists (c_pos c + zlen g). split; [|lia]. eapply line_eq; [exact Hl|reflexivity|cbn; exact Hb].
          -- exists q. split; [|lia]. eapply line_eq; [exact Hl|reflexivity|cbn; exact Hb].
        * rewrite E in *. cbn in *. intuition congruence. }
  pose proof (token_some Hqm HT E) as Hs. destruct HG as [HG|[X _]]; [|congruence]. specialize (HL Hs). specialize (HV Hs).
  destruct (next_lex HG H Hn HV) as (b & Hb & H0 & HN). set (start := c_pos c + zlen g). set (c0 := token_at g b c) in *.
  assert (Hp0 : c_pos c0 = start) by reflexivity.
  assert (Htk : existsb (tok_eqb (k_tok k)) [TLc; TSelc; TRegexp; TDivide; TPipe; TPipeEnd] = true -> c_tok c = ptok p).
  { intros X. destruct Htok as [Htok|Hf]; [exact Htok|]. destruct Hf. apply existsb_exists in X. destruct X as (t & X1 & X2). apply tok_eqb_eq in X2. now rewrite X2. }
  (* the line of the token *)
  assert (HL0 : exists q, line c0 q /\ q <= start /\ (k_brk k = true \/ p = None -> q = start) /\ (k_tok k = TLp -> k_brk k = false /\ p <> None -> q < start)).
  { destruct HL as [[[-> Hk]|[(-> & Hl & Hk)|(-> & (q & Hl & Hq) & Hk & Hk')]]|(-> & Hl & Hk)].
    4: { exists start. split; [|split; [lia|]]. + eapply line_eq; [exact Hl|reflexivity|cbn; exact Hb]. + split; [reflexivity|]. congruence. }
    - exists start. split; [|split; [lia|]]. + eapply line_eq; [exact (bol_line H HG HV Hb eq_refl)|reflexivity|reflexivity]. + split; [reflexivity|]. intros _ [X1 X2]. destruct Hk; congruence.
    - exists start. split; [|split; [lia|]]. + eapply line_eq; [exact Hl|reflexivity|cbn; exact Hb]. + split; [reflexivity|]. intros _ [X1 X2]. destruct Hk; congruence.
    - exists q. split; [eapply line_eq; [exact Hl|reflexivity|cbn; exact Hb]|]. split; [unfold start; lia|]. split; [|intros _ _; exact Hq]. intros [X|X]; congruence. }
  (* a bar looks ahead *)
  assert (HP : exists b', place (c_pos c) c0 (k_tok k) b' /\ (plain_punct (k_tok k) = true -> b' = b) /\ (forall k3 r, rest = k3 :: r -> seen k3 -> k_brk k3 = false -> b' = b)).
  { destruct (k_tok k) eqn:Ek; try (exists b; split; [reflexivity|tauto]); cbn [place situated] in *; change (c_bol c0) with b; change (c_tok c0) with (c_tok c); change (c_opts c0) with (c_opts c); rewrite ?Ho, ?Hp0.
    - exists b. split; [split; [reflexivity|]|tauto]. rewrite (Htk eq_refl). destruct HSit as (t & -> & Ht). now apply ends_operand_b.
    - exists b. split; [split; [reflexivity|]|tauto]. destruct HL0 as (q & Hq & _ & _ & Hq'). exists q. split; [exact Hq|]. specialize (Hq' eq_refl HSit). lia.
    - exists b. split; [split; [reflexivity|]|tauto]. destruct HL0 as (q & Hq & _ & Hq' & _). rewrite <- (Hq' HSit). exact Hq.
    - exists b. split; [split; [reflexivity|]|tauto]. destruct (HLb eq_refl) as [-> Hz]. unfold start. change (@zlen Z []) with 0. lia.
    - exists b. split; [split; [reflexivity|]|tauto]. unfold start. destruct (HLs eq_refl) as [Hg|Hz].
      + left. destruct g; [congruence|]. rewrite zlen_cons. pose proof (zlen_nonneg g). lia.
      + destruct g; [right; change (@zlen Z []) with 0; lia|left; rewrite zlen_cons; pose proof (zlen_nonneg g); lia].
    - exists b. split; [split; [reflexivity|]|tauto]. rewrite (Htk eq_refl). destruct p as [t|]; cbn in *; congruence.
    - exists b. split; [split; [reflexivity|]|tauto]. rewrite (Htk eq_refl), HSit. reflexivity.
    - (* | opens *) destruct HSit as [S1 S2].
      assert (T1 : k_txt k = lit "|") by (eapply pipe_text; [|exact HT]; auto).
      rewrite T1 in H0. destruct (@look_ahead _ _ rest (fwd 1 c0) HS ltac:(discriminate) (at_fwd1 (c := c0) (b := "|"%ch) H0) Hn) as (q & n & b' & E1 & E2).
      exists b'. split; [|split; [discriminate|]].
      + right. split; [rewrite (Htk eq_refl); destruct p as [t|]; cbn in *; congruence|]. exists (look rest), q, n. split; [exact E1|]. split; [discriminate|tauto].
      + intros k3 r Er E3 Eb. destruct (E2 k3 r Er) as [_ X]. specialize (X E3). rewrite Eb in X. exact X.
    - (* | closes *)
      assert (T1 : k_txt k = lit "|") by (eapply pipe_text; [|exact HT]; auto).
      destruct (tok_eqb_spec (c_tok c) TPipe) as [Ep|Ep]; [exists b; split; [left; auto|tauto]|].
      rewrite T1 in H0. destruct (@look_ahead _ _ rest (fwd 1 c0) HS ltac:(discriminate) (at_fwd1 (c := c0) (b := "|"%ch) H0) Hn) as (q & n & b' & E1 & E2).
      exists b'. split; [|split; [discriminate|]].
      + right. split; [exact Ep|]. exists (look rest), q, n. split; [exact E1|]. split; [|reflexivity]. intros _. destruct HSit as [X|X]; [|exact X]. destruct Ep. rewrite (Htk eq_refl), X. reflexivity.
      + intros k3 r Er E3 Eb. destruct (E2 k3 r Er) as [_ X]. specialize (X E3). rewrite Eb in X. exact X.
    - exists b. split; [split; [reflexivity|]|tauto]. rewrite (Htk eq_refl). destruct p as [t|]; cbn [ptok]; [|reflexivity].
      specialize (HSit t eq_refl). rewrite <- ends_operand_b in HSit. destruct (isRegexpAcceptable t); congruence. }
  assert (HX : exists c1, ev_next c c1 /\ c_opts c1 = o /\ c_nls c1 = -1 /\ c_tok c1 = k_tok k /\ same_val (c_val c1) (k_val k) /\ (k_tok k = TInteger -> c_radix c1 = k_radix k)
    /\ c_names c1 = ns /\ c_text c1 = c_text c /\ c_defs c1 = c_defs c /\ c_pos c1 = start + zlen (k_txt k) /\ (k_tok k = TTypeName -> c_tsp c1 = start)
    /\ (In (k_tok k) [TFarrow; TParrow] -> c_bol c1 = b)
    /\ (forall k3 r, rest = k3 :: r -> seen k3 -> k_brk k3 = false -> exists q, line c1 q /\ q < start + zlen (k_txt k))).
  { assert (Hpos : 0 < zlen (k_txt k)) by (destruct (k_txt k) as [|b0 x0]; [congruence|rewrite zlen_cons; pose proof (zlen_nonneg x0); lia]).
    destruct HP as (b' & HP & Hb1 & Hb2). destruct (written_cases HT E) as [HT1|[(e1 & Et & Ev & HT1)|(He & Em & HT1)]].
    - destruct (token_lexes Hqm HT1 E (c0 := c0) Ho Hfac Hn HS HC H0 HP) as (rdx & HEv & Hrdx). eexists. split; [exact (HN _ HEv)|].
      unfold after, lexed, c0, token_at, start. cbn [with_radix with_bol with_tok with_tsp fwd with_pos c_opts c_nls c_tok c_val c_radix c_names c_text c_tsp c_pos c_bol c_defs].
      split; [exact Ho|]. split; [exact Hn|]. split; [reflexivity|]. split; [|].
      { destruct (k_val k) eqn:Ev; try reflexivity. exfalso. clear -HT1. inversion HT1. }
      split; [exact Hrdx|]. split; [exact Hns|]. split; [reflexivity|]. split; [reflexivity|]. split; [reflexivity|]. split; [reflexivity|]. split; [intros Y; apply Hb1; cbn in Y; destruct Y as [<-|[<-|[]]]; reflexivity|].
      intros k3 r Er E3 Eb. destruct HL0 as (q & Hq & Hq' & _). exists q. split; [|unfold start in *; lia].
      eapply line_eq; [exact Hq|reflexivity|]. cbn. exact (Hb2 _ _ Er E3 Eb).
    - destruct HL0 as (q & Hq & Hq' & _). destruct (Hm HT1) as [_ HL1].
      destruct (HL1 c0 (render rest) q (c_pos c) Ho Hn H0 Hq Hq') as (c1 & e' & A1 & A2 & A3 & A4 & A5 & A6 & A7 & A8 & A9 & A10 & q' & A11 & A12).
      exists c1. split; [exact (HN _ A1)|]. split; [exact A9|]. split; [exact A10|]. split; [congruence|]. split; [rewrite Ev; cbn [same_val]; eauto|]. split; [congruence|]. split; [rewrite A7; exact Hns|].
      split; [rewrite A6; reflexivity|]. split; [rewrite A8; reflexivity|]. split; [exact A5|]. split; [congruence|]. split; [rewrite Et; cbn; intuition congruence|]. intros _ _ _ _ _. exists q'. split; [exact A11|]. change (c_pos c0) with start in A5. lia.
    - assert (HLq : brk = false -> exists q, line c q /\ q < c_pos c + zlen g + zlen (k_txt k)).
      { intros Eb. destruct HL as [[[X _]|[(_ & Hl & _)|(_ & (q & Hl & Hq) & _)]]|(_ & Hl & _)]; [| |exists q; split; [exact Hl|lia]|exists (c_pos c + zlen g); split; [exact Hl|lia]]; [congruence|exists (c_pos c + zlen g); split; [exact Hl|lia]]. }
      destruct (tagged_next HT1 He Ho Hn HG H HS HC HTX HLq) as (c1 & K1 & (K2 & K3 & K4 & K5 & K6) & K7 & K8 & K9 & q & Hq & Hle).
      assert (Hfix : ~ In (k_tok k) [TInteger; TTypeName; TFarrow; TParrow]).
      { clear -HT1. destruct HT1 as [t v r f pre x _ _ _ [Hf _]| |]; [intros X; apply Hf; cbn in *; tauto|cbn; intuition discriminate|cbn; intuition discriminate]. }
      exists c1. split; [exact K1|]. split; [congruence|]. split; [congruence|]. split; [exact K7|]. split; [|].
      { rewrite K8. clear -HT1 HTX. destruct (k_val k) eqn:Ev; try reflexivity. exfalso. inversion HT1 as [t v r f pre x _ _ HT _| |v r b x _ X1 X2]; subst; [inversion HT|].
        destruct (HTX (eq_sym X1)) as (? & ? & ? & ? & ? & _ & _ & _ & _ & _ & _ & X). discriminate. }
      split; [intros X; destruct Hfix; rewrite X; cbn; auto|]. split; [congruence|]. split; [exact K2|]. split; [exact K6|]. split; [exact K9|].
      split; [intros X; destruct Hfix; rewrite X; cbn; auto|]. split; [intros X; destruct Hfix; cbn in *; tauto|]. intros _ _ _ _ _. exists q. split; [exact Hq|]. unfold start. lia. }
  destruct HX as (c1 & HEv & A1 & A2 & A3 & A4 & A5 & A6 & A7 & A8 & A9 & A10 & A11 & A12). exists c1. split; [|split; [|split; [|split]]].
  - exact HEv.
  - cbn [curp]. rewrite (shown_not m E). repeat (split; [assumption|]).
    pose proof (at_len H) as Hlen. unfold len in Hlen. destruct H as (pre & HTx & HPx). exists (pre ++ g). split; [rewrite A7, HTx, <- !app_assoc; reflexivity|]. split; [rewrite zlen_app; intros Y; rewrite (A10 Y); unfold start; lia|].
    destruct rest as [|k3 r]; [cbn [stream] in HS; congruence|]. split; [exact E|]. split; [exact Hs|].
    exists false. split; [rewrite A9, zlen_app; unfold start; lia|]. split; [discriminate|].
    intros E3. destruct (k_brk k3) eqn:Eb; [discriminate|]. destruct (A12 _ _ eq_refl E3 Eb) as (q & Hq & Hq'). exists q. split; [exact Hq|]. rewrite zlen_app. unfold start in Hq'. lia.
  - exact A8.
  - exact A7.
  - intros Y1 ->. rewrite (A11 Y1). exact Hb.
Qed.
Lemma cur_at prev ns k k2 rest c : curp prev ns (k :: k2 :: rest) c -> exists g brk, at_ c (g ++ k_txt k2 ++ render rest) /\ (gap brk g \/ k_txt k2 = [] /\ end_gap g)
  /\ stream o m prev (Some (k_tok k)) (k2 :: rest) /\ (seen k2 -> lines (Some (k_tok k)) k2 brk g c)
  /\ (k_tok k2 = TLb -> g = [] /\ c_pos c <> 0) /\ (k_tok k2 = TListstart -> g <> [] \/ c_pos c = 0)
  /\ (brk = true -> k_brk k2 = true) /\ (g = [] \/ g = k_gap k2).
Proof.
  intros (Ho & Hn & Ht & Hv & Hr & Hns & HS & pre & HTx & Hts & Hke & Hne & sk & Hp & Hsk & HL). rewrite render_cons in HTx.
  pose proof HS as HS0. apply stream_cons in HS. destruct HS as (HT & HG & HSit & HC & HE & HS).
  assert (Hpos : 0 < zlen (k_txt k)). { destruct (k_txt k) as [|x l]; [congruence|]. rewrite zlen_cons. pose proof (zlen_nonneg l). lia. }
  pose proof (zlen_nonneg pre) as Hpre. pose proof (zlen_nonneg (k_gap k2)) as Hgap.
  destruct sk.
  - exists [], false. split; [exists (pre ++ k_txt k ++ k_gap k2); rewrite HTx, Hp, !zlen_app, <- !app_assoc; split; [reflexivity|lia]|]. split; [left; constructor|].
    split; [exact HS0|]. split; [|split; [|split; [|split; [discriminate|auto]]]].
    + intros E. specialize (HL E). right. change (@zlen Z []) with 0. rewrite Z.add_0_r. destruct (k_brk k2).
      * left. split; [reflexivity|]. auto.
      * right. split; [reflexivity|]. destruct HL as (q & Hq & Hle). split; [exists q; split; [exact Hq|lia]|]. split; [reflexivity|discriminate].
    + intros _. split; [reflexivity|]. lia.
    + intros E. rewrite E in HSit. cbn in HSit. destruct HSit as [X|(_ & X1 & X2 & X3)]; [discriminate|]. destruct (Hsk eq_refl) as [Y|[Y|[Y1 Y2]]]; [congruence|congruence|]. exfalso. apply Y2. specialize (X3 Y1). congruence.
  - exists (k_gap k2), (k_brk k2). split; [exists (pre ++ k_txt k); rewrite HTx, Hp, !zlen_app, <- !app_assoc; split; [reflexivity|lia]|]. split; [exact HG|].
    split; [exact HS0|]. split; [|split; [|split; [|split; [auto|auto]]]].
    + intros E. specialize (HL E). destruct (k_brk k2) eqn:Eb; [left; auto|]. right. right. split; [reflexivity|]. destruct HL as (q & Hq & Hle). split; [exists q; split; [exact Hq|lia]|].
      split; [exact Eb|discriminate].
    + intros E. rewrite E in HSit. cbn in HSit. unfold glued in HSit. destruct (k_gap k2); [|destruct HSit; discriminate]. split; [reflexivity|lia].
    + intros E. rewrite E in HSit. cbn in HSit. unfold glued in HSit. destruct HSit as [X|(X & _)]; [discriminate|]. left. destruct (k_gap k2); [discriminate X|discriminate].
Qed.
Theorem next_okp prev ns k k2 rest c : curp prev ns (k :: k2 :: rest) c ->
  exists c1, evals (fun r => r unit FNextToken) c tt c1 /\ curp (Some (k_tok k)) ns (k2 :: rest) c1 /\ c_defs c1 = c_defs c /\ c_text c1 = c_text c
    /\ (In (k_tok k2) [TFarrow; TParrow] -> k_brk k2 = false -> c_bol c1 = c_bol c).
Proof.
  intros H. pose proof H as (Ho & Hn & Ht & Hv & Hr & Hns & _ & pre & _ & _ & Hke & _). destruct (cur_at H) as (g & brk & H1 & H2 & H3 & H4 & H5 & H6 & H7 & _). rewrite (shown_not m Hke) in Ht.
  destruct (@lex_step ns prev (Some (k_tok k)) k2 rest c g brk Ho Hn Hns (or_introl Ht) H3 H1 H2 H5 H6 (fun X => or_introl (H4 X))) as (c1 & E1 & E2 & E3 & E4 & E5). exists c1. repeat (split; [assumption|]).
  intros A1 A3. apply E5; auto. destruct brk; [rewrite (H7 eq_refl) in A3; discriminate|reflexivity].
Qed.
(** a fresh parser *)
Theorem first_ok ks c : c_opts c = o -> c_nls c = -1 -> c_tok c = TEnd -> c_pos c = 0 -> c_bol c = 0 -> embedded m = false -> stream o m None None ks -> c_text c = render ks ->
  exists c1, evals (fun r => r unit FNextToken) c tt c1 /\ curp None (c_names c) ks c1 /\ c_defs c1 = c_defs c /\ c_text c1 = c_text c.
Proof.
  intros Ho Hn Ht Hp Hb Hem HS HTx. destruct ks as [|k rest]; [discriminate HS|].
  assert (H1 : at_ c (k_gap k ++ k_txt k ++ render rest)) by (exists []; rewrite HTx, render_cons; split; [reflexivity|exact Hp]).
  pose proof HS as HS0. apply stream_cons in HS0. destruct HS0 as (HT & HG & HSit & HC & HE & HS0).
  destruct (@lex_step (c_names c) None None k rest c (k_gap k) (k_brk k) Ho Hn eq_refl (or_introl Ht) HS H1 HG) as (c1 & E1 & E2 & E3 & E4 & _).
  - intros E. rewrite E in HSit. cbn in HSit. destruct HSit; congruence.
  - auto.
  - intros E. destruct HG as [HG|[X _]]; [|destruct (E X)]. left. unfold lines. destruct (k_brk k); [auto|]. right. left. split; [reflexivity|]. split; [|auto].
    destruct H1 as (pre & X1 & X2). pose proof (zlen_nonneg pre). destruct pre; [|rewrite zlen_cons in X2; pose proof (zlen_nonneg pre); lia].
    exists [], (k_gap k), (k_txt k ++ render rest), (first_byte (k_txt k)), 1. split; [exact X1|]. split; [exact Hb|]. split; [exact HG|].
    split; [exact (token_visible Hqm HT E (stream_ascii Hqm HS0) HC)|]. change (@zlen Z []) with 0. lia.
  - eauto.
Qed.
(** parse drops the gap after the first token of a block *)
Lemma skip_ok prev ns ks c : curp prev ns ks c -> (forall k r, ks = k :: r -> dropping prev k) -> (forall k, ks = [k] -> embedded m = false) ->
  exists r q c1, skipWhite false c = Ok (r, q) c1 /\ curp prev ns ks (with_pos q c1) /\ c_defs c1 = c_defs c /\ c_text c1 = c_text c.
Proof.
  intros H Hp Hem. destruct ks as [|k rest]; [destruct H|]. pose proof H as (Ho & Hn & Ht & Hv & Hr & Hns & HS & pre & HTx & Hts & HR).
  destruct rest as [|k2 rest].
  - rewrite (Hem k eq_refl) in HR. assert (H0 : at_ c []) by (exists (c_text c); rewrite app_nil_r; split; [reflexivity|exact HR]).
    destruct (@end_gap_skip [] c (end_plain gap_nil) H0 Hn) as (b & E). eexists _, _, _. split; [exact E|]. split; [|split; reflexivity]. change (@zlen Z []) with 0. rewrite Z.add_0_r.
    cbn [curp with_pos with_bol fwd c_opts c_nls c_tok c_val c_radix c_names c_text c_tsp c_pos]. repeat (split; [assumption|]). exists pre. rewrite (Hem k eq_refl). auto.
  - destruct HR as (Hke & Hne & sk & Hpos & Hsk & HL). rewrite render_cons in HTx. pose proof (stream_visible HS) as HV0. pose proof HS as HS0. apply stream_cons in HS0. destruct HS0 as (HT & HG & HSit & HC & HE & HS').
    destruct (cur_at H) as (g & brk & H1 & H2 & _ & H4 & _).
    assert (K : seen k2 -> gap brk g -> exists r q c1, skipWhite false c = Ok (r, q) c1 /\ curp prev ns (k :: k2 :: rest) (with_pos q c1) /\ c_defs c1 = c_defs c /\ c_text c1 = c_text c).
    { intros E H3. specialize (H4 E). specialize (HL E). specialize (HV0 E). destruct (gap_skip H3 H1 Hn HV0) as (b & Hb & Es).
      eexists _, _, _. split; [exact Es|]. split; [|split; reflexivity].
      cbn [curp with_pos with_bol fwd c_opts c_nls c_tok c_val c_radix c_names c_text c_tsp c_pos]. repeat (split; [assumption|]). exists pre. split; [rewrite render_cons; exact HTx|]. split; [exact Hts|].
      split; [exact Hke|]. split; [exact Hne|]. exists true. split; [|split; [intros _; eapply Hp; reflexivity|]].
      - pose proof (at_len H1) as Hl. unfold len in Hl. rewrite HTx, !zlen_app in Hl. lia.
      - intros _. destruct H4 as [[-> [Hk|?]]|[(-> & Hl & [Hk|?])|(-> & _ & Hk & _)]]; try discriminate; rewrite Hk in *.
        + intros _. eapply line_eq; [exact (bol_line H1 H3 HV0 Hb eq_refl)|reflexivity|reflexivity].
        + intros _. eapply line_eq; [exact Hl|reflexivity|cbn; exact Hb].
        + destruct HL as (q & Hq & Hle). exists q. split; [|exact Hle]. eapply line_eq; [exact Hq|reflexivity|cbn; exact Hb]. }
    assert (Hd : k_txt k2 = [] \/ seen k2) by (unfold seen; destruct (k_txt k2); [auto|right; discriminate]). destruct Hd as [E2|Hd]; [|apply K; [exact Hd|destruct H2 as [H2|[X _]]; [exact H2|destruct (Hd X)]]].
    pose proof HT as HT0. rewrite E2 in HT0. destruct (token_nil Hqm HT0) as (E & E1 & Em). rewrite (HE E) in *. rewrite E2 in H1, HTx. cbn [render flat_map app] in H1, HTx. rewrite app_nil_r in H1, HTx.
    assert (HG' : end_gap g) by (destruct H2 as [X|(_ & X)]; [econstructor; exact X|exact X]).
    destruct (end_gap_skip HG' H1 Hn) as (b & Es). eexists _, _, _. split; [exact Es|]. split; [|split; reflexivity].
    cbn [curp with_pos with_bol fwd c_opts c_nls c_tok c_val c_radix c_names c_text c_tsp c_pos]. repeat (split; [assumption|]). exists pre. split; [rewrite render_cons, E2; cbn [render flat_map app]; rewrite app_nil_r; exact HTx|]. split; [exact Hts|].
    split; [exact Hke|]. split; [exact Hne|]. exists true. split; [|split; [intros _; eapply Hp; reflexivity|]]; [|intros X; destruct (X E2)].
    pose proof (at_len H1) as Hl. unfold len in Hl. rewrite HTx, !zlen_app in Hl. lia.
Qed.
(** reading a token once more *)
Lemma relex_ok prev ns k k2 k3 rest c c1 c' : curp prev ns (k :: k2 :: k3 :: rest) c -> curp (Some (k_tok k)) ns (k2 :: k3 :: rest) c1 ->
  k_tok k2 = TIdentifier \/ k_tok k2 = TMultiply -> c_text c1 = c_text c ->
  c_opts c' = o -> c_nls c' = -1 -> c_names c' = ns -> c_text c' = c_text c -> c_pos c' = c_pos c -> (seen k3 -> k_brk k3 = false -> c_bol c' = c_bol c1) ->
  exists c2, evals (fun r => r unit FNextToken) c' tt c2 /\ curp (Some (k_tok k)) ns (k2 :: k3 :: rest) c2 /\ c_defs c2 = c_defs c' /\ c_text c2 = c_text c'.
Proof.
  intros H HK1 Hid Htx1 Ho Hn Hns Htx Hp Hbol. assert (E : k_tok k2 <> TEnd) by (destruct Hid as [-> | ->]; discriminate). destruct (cur_at H) as (g & brk & H1 & H2 & H3 & _). pose proof (stream_visible H3) as HV.
  apply stream_cons in H3. destruct H3 as (HT & HG & HSit & HC & HE & HS). apply (@at_state c c') in H1; [|exact Htx|exact Hp].
  pose proof (token_some Hqm HT E) as Hs. destruct H2 as [H2|[X _]]; [|congruence]. specialize (HV Hs).
  set (start := c_pos c' + zlen g). pose proof H1 as (pre & HTx & HPx). set (P := seen k3 /\ k_brk k3 = false).
  assert (HN : brk = false -> near P (start + zlen (k_txt k2) - 1) c').
  { intros _ [P1 P2]. destruct HK1 as (_ & _ & _ & _ & _ & _ & _ & pre1 & HTx1 & Hts1 & _ & _ & sk & _ & _ & HL1). specialize (HL1 P1). rewrite P2 in HL1. destruct HL1 as (q & Hq & Hle).
    exists q. split; [eapply line_eq; [exact Hq|congruence|exact (Hbol P1 P2)]|].
    pose proof (f_equal (@zlen Z) HTx1) as L1. pose proof (f_equal (@zlen Z) HTx) as L2. rewrite Htx1, !zlen_app in L1. rewrite Htx, !zlen_app in L2. unfold start. lia. }
  assert (Hlen : 0 < zlen (k_txt k2)) by (destruct (k_txt k2) as [|b0 l]; [congruence|rewrite zlen_cons; pose proof (zlen_nonneg l); lia]).
  assert (HX : exists c2, ev_next c' c2 /\ kin c' c2 /\ c_tok c2 = k_tok k2 /\ same_val (c_val c2) (k_val k2) /\ (k_tok k2 = TInteger -> c_radix c2 = k_radix k2)
    /\ c_pos c2 = start + zlen (k_txt k2) /\ (k_tok k2 = TTypeName -> c_tsp c2 = start) /\ near P (start + zlen (k_txt k2) - 1) c2).
  { destruct (written_cases HT E) as [HT1|[(e1 & Et & _)|(He & Em & HT1)]]; [|destruct Hid; congruence|].
    - destruct (next_lex H2 H1 Hn HV) as (b & Hb & H0 & HE1). pose proof (@token_line P _ _ _ _ _ _ _ (start + zlen (k_txt k2) - 1) H2 H1 HV Hb ltac:(unfold start; lia) HN) as HN1.
      set (c0 := token_at g b c') in *. assert (HP : place (c_pos c') c0 (k_tok k2) b). { destruct Hid as [-> | ->]; reflexivity. }
      destruct (token_lexes Hqm HT1 E (c0 := c0) Ho Hfac Hn HS HC H0 HP) as (rdx & HEv & Hrdx). eexists. split; [exact (HE1 _ HEv)|]. split; [repeat split|]. split; [reflexivity|].
      split; [cbn; destruct (k_val k2) eqn:Ev; try reflexivity; exfalso; clear -HT1; inversion HT1|]. split; [exact Hrdx|]. split; [reflexivity|]. split; [reflexivity|].
      intros XP. destruct (HN1 XP) as (q & Hq & Hle). exists q. split; [exact (@line_eq c0 _ _ Hq eq_refl eq_refl)|exact Hle].
    - inversion HT1 as [t v r f pre0 x Hp0 Hl0 HTT Hf X1 X2 X3 X4|r f pre0 Hl0 X1 X2 X3 X4|v r b0 x Hb0 X1 X2 X3 X4]; [|destruct Hid; congruence|destruct Hid; congruence].
      rewrite <- X4 in H1, HC, HN. unfold start in HN. destruct (@token_next P _ _ _ _ _ f pre0 x _ c' g brk Hp0 Hl0 HTT Hf He Ho Hn H2 H1 HS HC HN) as (c2 & K1 & K2 & K3 & K4 & K5 & K6).
      exists c2. split; [exact K1|]. split; [exact K2|]. split; [exact K3|]. split; [rewrite K4; destruct (k_val k2) eqn:Ev; try reflexivity; exfalso; clear -HTT; inversion HTT|].
      destruct Hf as [Hf _]. split; [intros X; destruct Hf; rewrite X; cbn; tauto|]. split; [exact K5|]. split; [intros X; destruct Hf; rewrite X; cbn; tauto|].
      unfold start. rewrite K5 in K6. exact K6. }
  destruct HX as (c2 & A1 & (A2 & A3 & A4 & A5 & A6) & A7 & A8 & A9 & A10 & A11 & A12). exists c2. split; [exact A1|]. split; [|split; [exact A6|exact A2]].
  cbn [curp]. split; [congruence|]. split; [congruence|]. split; [rewrite A7; symmetry; exact (shown_not m E)|]. split; [exact A8|]. split; [exact A9|]. split; [congruence|]. split; [exact HS|].
  exists (pre ++ g). split; [rewrite A2, HTx, <- !app_assoc; reflexivity|]. split; [intros Y; rewrite (A11 Y), zlen_app; unfold start; lia|]. split; [exact E|]. split; [exact Hs|].
  exists false. split; [rewrite A10, zlen_app; unfold start; lia|]. split; [discriminate|]. intros E3. assert (Eb : k_brk k3 = true \/ k_brk k3 = false) by (destruct (k_brk k3); auto). destruct Eb as [Eb|Eb]; rewrite Eb; [discriminate|].
  destruct (A12 (conj E3 Eb)) as (q & Hq & Hle). exists q. split; [exact Hq|]. rewrite zlen_app. unfold start in Hle. lia.
Qed.
Lemma peek_glued prev ns k k2 rest c : curp prev ns (k :: k2 :: rest) c -> k_gap k2 = [] -> k_tok k2 <> TEnd -> exists n, peek c = Ok (first_byte (k_txt k2), n) c.
Proof.
  intros H Hg E. destruct (cur_at H) as (g & brk & H1 & _ & HS & _ & _ & _ & _ & Hgg). rewrite Hg in Hgg. assert (g = []) as -> by (destruct Hgg; auto). cbn [app] in H1.
  apply stream_cons in HS. destruct HS as (HT & _). destruct (token_starts Hqm HT (token_some Hqm HT E)) as (b & s & Et & Hb & _). rewrite Et in H1. cbn [app] in H1. eexists.
  rewrite Et. cbn [first_byte]. apply (at_peek H1). apply head_ascii. lia.
Qed.
Lemma peek_other prev ns k k2 rest c : curp prev ns (k :: k2 :: rest) c -> ~ digit (first_byte (k_txt k2)) -> k_tok k2 <> TEnd -> exists r n, peek c = Ok (r, n) c /\ isDecimalDigit r = false.
Proof.
  intros H Hd E. destruct (cur_at H) as (g & brk & H1 & H2 & HS & _). apply stream_cons in HS. destruct HS as (HT & _). destruct (token_starts Hqm HT (token_some Hqm HT E)) as (b & s & Et & Hb & _).
  destruct H2 as [H2|[X _]]; [|congruence]. rewrite Et in H1, Hd. cbn [first_byte] in Hd.
  assert (K : exists x y, g ++ (b :: s) ++ render rest = x :: y /\ 0 <= x < 128 /\ isDecimalDigit x = false).
  { destruct H2 as [|? x ? Hx ?| | |]; cbn [app]; eexists _, _; (split; [reflexivity|]); (split; [lia|]); unfold isDecimalDigit, in_range, digit in *; lia. }
  destruct K as (x & y & K1 & K2 & K3). rewrite K1 in H1. exists x, 1. split; [|exact K3]. apply (at_peek H1). apply head_ascii. lia.
Qed.
End Cur.
