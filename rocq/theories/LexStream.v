(** * LexStream: nextToken walks through a token stream *)
From Verif Require Import Base Float Tokens Ast Ctx Lexer Parser Utf8Facts SpecReader ReaderProof LexBase SpecLex GapProof LexTokens LexPunct Evals LexStrings.
From Coq Require Import Lia ZifyBool.

(** ** The remaining tokens *)
Definition ev_lexes (scan : Z) (txt : str) (c0 c' : ctx) : Prop :=
  evals (fun r => lex_token r scan (c_pos c0) (first_byte txt)) (fwd 1 c0) tt c'.
Lemma ev_lexes_all scan txt c0 c' : (forall r, lexes r scan txt c0 c') -> ev_lexes scan txt c0 c'.
Proof. intros H. apply ev_all. intros r. apply H. Qed.

Lemma zlen_quoted (q : Z) (x : str) : zlen (q :: x ++ [q]) = 1 + (zlen x + 1).
Proof. rewrite zlen_cons, zlen_app. reflexivity. Qed.
Lemma at_quoted c q x s : at_ c ((q :: x ++ [q]) ++ s) -> at_ (fwd 1 c) (x ++ q :: s).
Proof. intros H. apply (@at_fwd1 c q). rewrite <- app_comm_cons, <- app_assoc in H. exact H. Qed.
Lemma lexes_single scan c0 src rs s : sq src rs -> at_ c0 (("'"%ch :: encode src ++ ["'"%ch]) ++ s) ->
  ev_lexes scan ("'"%ch :: encode src ++ ["'"%ch]) c0 (lexed TString (VStr (encode rs)) ("'"%ch :: encode src ++ ["'"%ch]) c0).
Proof.
  intros HS H. apply at_quoted in H. unfold ev_lexes.
  match goal with |- evals ?m _ _ _ => change m with (fun r : recT => consumeSingleQuotedString r) end. unfold consumeSingleQuotedString.
  eapply ev_step; [reflexivity|]. pose proof (@sq_scan (c_pos (fwd 1 c0) - 1) (c_pos (fwd 1 c0)) src rs HS [] (fwd 1 c0) s H) as E.
  eapply ev_bind; [eapply ev_same; [|exact E]|].
  - intros r. unfold consumeDelimitedString, scanning, bind. destruct (next (fwd 1 c0)) as [[a b] c1|e c1|] eqn:En; [|reflexivity|reflexivity]. cbn [fst].
    unfold next in En. destruct (rune_at (c_pos (fwd 1 c0)) (fwd 1 c0)) as [[x y]|]; [|discriminate]. inversion En; subst. reflexivity.
  - eapply ev_eq; [apply ev_ret| |reflexivity]. unfold lexed. cbn [app]. rewrite zlen_quoted, fwd_fwd. reflexivity.
Qed.
Lemma lexes_double scan c0 src rs s : dq (o_hex (c_opts c0)) src rs -> o_factory (c_opts c0) = true -> at_ c0 ((""""%ch :: encode src ++ [""""%ch]) ++ s) ->
  ev_lexes scan (""""%ch :: encode src ++ [""""%ch]) c0 (lexed TString (VStr (encode rs)) (""""%ch :: encode src ++ [""""%ch]) c0).
Proof.
  intros HS Hf H. apply at_quoted in H. unfold ev_lexes.
  match goal with |- evals ?m _ _ _ => change m with (fun r : recT => consumeDoubleQuotedString r) end. unfold consumeDoubleQuotedString.
  eapply ev_step; [reflexivity|]. eapply ev_step; [reflexivity|]. change (o_factory (c_opts (fwd 1 c0))) with (o_factory (c_opts c0)). rewrite Hf.
  pose proof (@dq_scan (o_hex (c_opts c0)) (c_pos (fwd 1 c0) - 1) (c_pos (fwd 1 c0)) (Some []) src rs HS [] (fwd 1 c0) s H Hf eq_refl) as E.
  eapply ev_bind; [eapply ev_same; [|exact E]|].
  - intros r. unfold consumeDelimitedString, scanning, bind. destruct (next (fwd 1 c0)) as [[a b] c1|e c1|] eqn:En; [|reflexivity|reflexivity]. cbn [fst].
    unfold next in En. destruct (rune_at (c_pos (fwd 1 c0)) (fwd 1 c0)) as [[x y]|]; [|discriminate]. inversion En; subst. reflexivity.
  - apply ev_all. intros r. cbn [negb]. unfold bind, value_string, bind, ask, ret. cbn [with_tok c_val c_tsp c_pos getPos ask]. unfold getPos, ask.
    unfold lexed. cbn [app]. rewrite zlen_quoted, fwd_fwd. reflexivity.
Qed.
Lemma lexes_regexp scan c0 src rs s : rx src rs -> isRegexpAcceptable (c_tok c0) = true -> at_ c0 (("/"%ch :: encode src ++ ["/"%ch]) ++ s) ->
  ev_lexes scan ("/"%ch :: encode src ++ ["/"%ch]) c0 (lexed TRegexp (VStr (encode rs)) ("/"%ch :: encode src ++ ["/"%ch]) c0).
Proof.
  intros HS Hf H. apply at_quoted in H. unfold ev_lexes.
  match goal with |- evals ?m _ _ _ => change m with (fun r : recT => t <- curTok ;; if isRegexpAcceptable t then
      found <- consumeRegexp r ;; if found : bool then ret tt else setToken TDivide else setToken TDivide) end.
  eapply ev_step; [reflexivity|]. change (c_tok (fwd 1 c0)) with (c_tok c0). rewrite Hf. unfold consumeRegexp.
  pose proof (@rx_scan (c_pos (fwd 1 c0) - 1) (c_pos (fwd 1 c0)) src rs HS [] (fwd 1 c0) s H) as E.
  eapply ev_bind with (a := true).
  - eapply ev_step; [reflexivity|]. eapply ev_bind; [eapply ev_same; [|exact E]|].
    + intros r. unfold consumeDelimitedString, scanning, bind. destruct (next (fwd 1 c0)) as [[a b] c1|e c1|] eqn:En; [|reflexivity|reflexivity]. cbn [fst].
      unfold next in En. destruct (rune_at (c_pos (fwd 1 c0)) (fwd 1 c0)) as [[x y]|]; [|discriminate]. inversion En; subst. reflexivity.
    + apply ev_all. intros r. cbn. unfold bind, curTok, ask, modify, ret. cbn. reflexivity.
  - eapply ev_eq; [apply ev_ret| |reflexivity]. unfold lexed. cbn [app]. rewrite zlen_quoted, fwd_fwd. reflexivity.
Qed.
(** backticks *)
Lemma skip_runes p rs : forall n k c b s, at_ c (encode rs ++ b :: s) -> Forall rune_ok rs -> Forall (fun r => p r = true) rs -> 0 <= b < 128 -> p b = false -> (List.length rs < n)%nat ->
  loop n (fun count => '(c, n) <- peek ;; if p c then advance n ;; ret (inl (count + 1)) else ret (inr (count, (c, n)))) k c
  = Ok (k + zlen rs, (b, 1)) (fwd (zlen (encode rs)) c).
Proof.
  induction rs as [|r rs IH]; intros n k c b s H HO HP Hb Hp Hn; (destruct n as [|n]; [cbn in *; lia|]); cbn [loop].
  - cbn [encode map List.concat app] in H. change (encode [] ++ b :: s) with (b :: s) in H. unfold bind at 1. rewrite (bind_ok _ (at_peek H (head_ascii _ Hb))). rewrite Hp. unfold ret. cbn. rewrite fwd_0. do 2 f_equal. f_equal. unfold zlen. cbn. lia.
  - inversion HO; subst. inversion HP; subst. apply at_encode_cons in H. unfold bind at 1.
    assert (Hh : head_rune (encode_rune r ++ encode rs ++ b :: s) = Some (r, zlen (encode_rune r))) by (apply head_encode; unfold rune_ok in *; intuition).
    rewrite (bind_ok _ (at_peek H Hh)). rewrite H4. cbv beta.
    change (advance (zlen (encode_rune r)) ;; ret (inl (k + 1))) with (bind (advance (zlen (encode_rune r))) (fun _ => @ret (Z + (Z * (Z * Z))) (inl (k + 1)))).
    unfold bind at 1, advance, modify, ret. fold (fwd (zlen (encode_rune r)) c).
    erewrite IH; [|exact (at_fwd H)|assumption|assumption|exact Hb|exact Hp|cbn in Hn; lia].
    rewrite fwd_fwd, encode_cons, zlen_app, zlen_cons. replace (k + 1 + zlen rs) with (k + (1 + zlen rs)) by lia. reflexivity.
Qed.
Lemma lexes_backtick rec scan c0 rs s : o_backtick (c_opts c0) = true -> Forall rune_ok rs -> ~ In "`"%ch rs -> at_ c0 (("`"%ch :: encode rs ++ ["`"%ch]) ++ s) ->
  lexes rec scan ("`"%ch :: encode rs ++ ["`"%ch]) c0 (lexed TString (VStr (encode rs)) ("`"%ch :: encode rs ++ ["`"%ch]) c0).
Proof.
  intros Ho HR HN H. apply at_quoted in H.
  match goal with |- lexes _ _ _ _ ?c' => change ((bt <- option_on o_backtick ;; if bt : bool then consumeBacktickedString else unexpected_char (c_pos c0) "`"%ch) (fwd 1 c0) = Ok tt c') end.
  unfold bind at 1, option_on, ask. change (c_opts (fwd 1 c0)) with (c_opts c0). rewrite Ho. unfold consumeBacktickedString.
  unfold bind at 1, getPos, ask.
  erewrite bind_ok; [|unfold skip_while, while; eapply (skip_runes _ H HR)].
  - cbv beta iota. change ("`"%ch =? 0) with false. cbv iota. rewrite (bind_ok _ (@at_from (fwd 1 c0) (encode rs) _ _ H eq_refl)).
    unfold bind, settokenValue, advance, modify, lexed. rewrite zlen_quoted, !fwd_fwd. unfold fwd, with_pos, with_tok. cbn [c_pos c_text c_opts c_nls c_tok c_bol c_tsp c_val c_radix c_names c_defs].
    replace (c_pos c0 + (1 + (zlen (encode rs) + 1))) with (c_pos c0 + (1 + zlen (encode rs)) + 1) by lia. reflexivity.
  - revert HR HN. clear. induction rs as [|r rs IH]; intros HR HN; constructor; [|apply IH; [now inversion HR|intros X; apply HN; now right]].
    inversion HR as [|? ? (_ & _ & X)]; subst. assert (r <> "`"%ch) by (intros ->; apply HN; now left). lia.
  - lia.
  - reflexivity.
  - pose proof (encode_length rs). pose proof (loop_fuel_enough H). lia.
Qed.

(** ** First characters *)
Lemma punct_first t x : In (t, x) punctuation -> exists b s, lit x = b :: s /\ 0 < b < 128 /\ b <> 10 /\ b <> "#"%ch /\ ~ blank b
  /\ (b = ":"%ch -> t = TColon /\ s = []) /\ (b = "/"%ch -> t = TDivide /\ s = []).
Proof.
  unfold punctuation. cbn [In]. intros HI.
  repeat (destruct HI as [HI|HI]; [injection HI as <- <-; eexists _, _; split; [reflexivity|]; vm_compute; intuition discriminate|]).
  destruct HI.
Qed.
Lemma reserved_first w t : In (w, t) reserved -> exists h s, lit w = h :: s /\ lower h.
Proof.
  unfold reserved. cbn [In]. intros HI.
  repeat (destruct HI as [HI|HI]; [injection HI as <- <-; eexists _, _; split; [reflexivity|vm_compute; intuition discriminate]|]). destruct HI.
Qed.
(** what is known about the first character of a token text *)
Definition starts (t : tok) (txt : str) : Prop := exists b s, txt = b :: s /\ 0 < b < 128 /\ b <> 10 /\ b <> "#"%ch /\ ~ blank b
  /\ (b = ":"%ch -> (t = TColon /\ s = []) \/ exists s', s = ":"%ch :: s') /\ (b = "/"%ch -> (t = TDivide /\ s = []) \/ t = TRegexp).
Lemma starts_simple t b s : 0 < b < 128 -> solid_b b = true -> b <> ":"%ch -> starts t (b :: s).
Proof. intros H1 H2 H3. exists b, s. apply solid_spec in H2. unfold solid, blank in *. intuition lia. Qed.
Lemma decimals_starts t ds e : Forall (fun d => 0 <= d <= 9) ds -> ds <> [] -> starts t (decimals ds ++ e).
Proof. intros HF Hn. destruct ds as [|d ds]; [congruence|]. inversion HF; subst. change (decimals (d :: ds) ++ e) with ((48 + d) :: decimals ds ++ e). apply starts_simple; try lia. unfold solid_b. cbn. lia. Qed.
Lemma leading_nonempty (ds : list Z) : ds = [0] \/ 0 < hd 0 ds -> ds <> [].
Proof. intros [->|H] E; [discriminate|subst; cbn in H; lia]. Qed.
Lemma text_starts o t v radix txt : token_text o t v radix txt -> t <> TEnd -> starts t txt.
Proof.
  intros H Ht. destruct H.
  all: try match goal with
    | |- starts ?t (lit ?x) => let l := eval vm_compute in (lit x) in match l with _ :: _ => change (starts t l) end
    | |- starts ?t (lit ?x ++ ?w) => let l := eval vm_compute in (lit x) in change (starts t (l ++ w)); cbn [app]
    end.
  all: try (apply starts_simple; [lia|reflexivity|discriminate]).
  - congruence.
  - destruct (punct_first H) as (b & x & -> & ? & ? & ? & ? & ? & ?). exists b, x. intuition.
  - destruct (reserved_first H) as (b & x & -> & Hl). unfold lower in Hl. apply starts_simple; try lia. unfold solid_b. cbn. lia.
  - destruct (qualified_head H) as (b & x & -> & Hl). unfold lower in Hl. apply starts_simple; try lia. unfold solid_b. cbn. lia.
  - exists ":"%ch, (":"%ch :: w). unfold blank. repeat split; try lia; try discriminate. right. now exists w.
  - destruct (qualified_head H) as (b & x & -> & Hl). unfold upper in Hl. apply starts_simple; try lia. unfold solid_b. cbn. lia.
  - exists ":"%ch, (":"%ch :: w). unfold blank. repeat split; try lia; try discriminate. right. now exists w.
  - rewrite <- (app_nil_r (decimals ds)). apply decimals_starts; auto. intros ->. cbn in H. lia.
  - destruct H as [ds e HF Hz He | ds fs HF Hz HFf Hn | ds fs e HF Hz HFf Hn He]; apply decimals_starts; auto using leading_nonempty.
  - exists "/"%ch, (encode src ++ ["/"%ch]). unfold blank. repeat split; try lia; try discriminate. auto.
Qed.
Lemma gap_ascii brk g s : gap brk g -> ascii_head s -> ascii_head (g ++ s).
Proof. intros [|? b ? Hb ?| | |] Hs; [exact Hs|..]; right; eexists _, _; (split; [reflexivity|lia]). Qed.
Lemma gap_no_colon brk g s : gap brk g -> g <> [] -> first_byte (g ++ s) <> ":"%ch.
Proof. intros [|? b ? Hb ?| | |] Hn; [congruence|..]; cbn; lia. Qed.
Lemma end_gap_cases g : end_gap g -> g = [] \/ exists b g', g = b :: g' /\ 0 < b < 128 /\ b <> ":"%ch.
Proof.
  intros [brk g' Hg|brk g' rs Hg HF HN].
  - destruct Hg as [|? b ? Hb ?| | |]; [auto|..]; right; eexists _, _; (split; [reflexivity|lia]).
  - right. destruct Hg as [|? b ? Hb ?| | |]; eexists _, _; (split; [reflexivity|lia]).
Qed.
Lemma text_end o t v radix : token_text o t v radix [] -> t = TEnd.
Proof. intros H. destruct t; try reflexivity; destruct (text_starts H ltac:(discriminate)) as (b & x & E & _); discriminate. Qed.
Lemma text_end_inv o v radix txt : token_text o TEnd v radix txt -> txt = [] /\ v = VNil.
Proof.
  intros H. inversion H; subst; try (split; reflexivity).
  - unfold punctuation in H0. cbn [In] in H0. repeat (destruct H0 as [H0|H0]; [discriminate|]). destruct H0.
  - unfold reserved in H0. cbn [In] in H0. repeat (destruct H0 as [H0|H0]; [discriminate|]). destruct H0.
  - destruct (o_tasks o); discriminate.
Qed.
Lemma text_visible o t v radix txt s : token_text o t v radix txt -> t <> TEnd -> ascii_head s -> ~ clash t txt s -> visible (txt ++ s) (first_byte txt) 1.
Proof.
  intros HT Hn HA HC. destruct (text_starts HT Hn) as (b & x & Et & H1 & H2 & H3 & H4 & H5 & H6). rewrite Et. cbn [app first_byte].
  destruct (Z.eq_dec b "/"%ch) as [->|Hb1]; [|destruct (Z.eq_dec b "*"%ch) as [->|Hb2]; [apply visible_star|]].
  - apply visible_slash. destruct (H6 eq_refl) as [[-> ->]| ->].
    + cbn in HC. apply (ascii_head_is HA). intros E. apply HC. unfold one_of. rewrite E. cbn. auto.
    + clear H1 H2 H3 H4 H5 H6. inversion HT as [| | | | | | | | | | | | | | | | | | | | | |src rs rdx HR HH E1 E2 E3 E4]; subst; try discriminate.
      * match goal with K : In _ punctuation |- _ => unfold punctuation in K; cbn [In] in K; repeat (destruct K as [K|K]; [discriminate|]); destruct K end.
      * match goal with K : In _ reserved |- _ => unfold reserved in K; cbn [In] in K; repeat (destruct K as [K|K]; [discriminate|]); destruct K end.
      * inversion E4; subst. rewrite <- app_assoc. cbn [app].
        inversion HR; subst; cbn [hd] in HH.
        -- exists "/"%ch, 1. split; [reflexivity|discriminate].
        -- rewrite encode_cons, <- app_assoc. match goal with K : rune_ok _ |- _ => destruct K as (R1 & R2 & R3) end. eexists _, _. split; [apply head_encode; assumption|exact HH].
        -- exists "\"%ch, 1. split; [reflexivity|discriminate].
        -- exists "\"%ch, 1. split; [reflexivity|discriminate].
  - apply visible_solid; [apply head_ascii; lia|]. unfold solid. tauto.
Qed.
(** ** Streams *)
Definition quoted (m : mode) : Prop := forall e txt, strings m e txt -> exists s, txt = """"%ch :: s.
Definition mark (b : Z) : Prop := one_of b "<%-".
Lemma mark_starts t b s : mark b -> starts t (b :: s).
Proof. intros H. apply starts_simple; [|destruct H as [<-|[<-|[<-|[]]]]; reflexivity|destruct H as [<-|[<-|[<-|[]]]]; discriminate]. destruct H as [<-|[<-|[<-|[]]]]; split; reflexivity. Qed.
Lemma mark_visible b s : mark b -> visible (b :: s) b 1.
Proof.
  intros H. apply visible_solid; [apply head_ascii; destruct H as [<-|[<-|[<-|[]]]]; split; (reflexivity || discriminate)|]. apply solid_spec. destruct H as [<-|[<-|[<-|[]]]]; reflexivity.
Qed.
Lemma closes_first cl s : closes cl s -> exists b y, cl = b :: y /\ mark b.
Proof. intros [->|(b & _ & [->|[-> _]])]; eexists _, _; (split; [reflexivity|]); unfold mark, one_of; cbn; auto. Qed.
Lemma lead_first t t' x s : lead t t' x s -> x <> [] -> exists b y, x = b :: y /\ mark b.
Proof.
  intros [t0 s0|t0 dash brk g x0 s0 Hd Hg Hl|t0 cl src x0 s0 Hc Hs Ht Hl] Hn; [congruence| |].
  - eexists _, _. split; [reflexivity|]. unfold mark, one_of. cbn. auto.
  - destruct (closes_first Hc) as (b & y & -> & Hb). eexists _, _. split; [reflexivity|exact Hb].
Qed.
Section Streams.
Variables (o : opts) (m : mode).
Hypothesis Hq : quoted m.
(** a token that is written after tags begins with a tag *)
Lemma written_first t v radix txt : written o m t v radix txt ->
  token_text o t v radix txt /\ (t = TEnd -> embedded m = false) \/ (exists e, t = TConcatenatedString /\ v = VExpr e /\ strings m e txt)
  \/ t = TEnd /\ embedded m = true /\ v = VNil /\ (exists s, txt = "}"%ch :: s)
  \/ o_epp o = true /\ embedded m = false /\ (exists b y, txt = b :: y /\ mark b).
Proof.
  intros [t' v' r' x H HE|e r x H|r x H|t' v' r f pre x He Hm Hp Hl Ht Hf|r f pre He Hm Hl|v' r b x He Hm Hb|r f pre He Hm Hp Hl].
  - left. auto.
  - right. left. eauto.
  - right. right. left. eauto 6.
  - right. right. right. split; [exact He|]. split; [exact Hm|]. destruct (lead_first Hl Hp) as (b & y & -> & Hb). exists b, (y ++ x). auto.
  - right. right. right. split; [exact He|]. split; [exact Hm|]. destruct pre as [|p0 pre]; [exists "<"%ch, (lit "%="); split; [reflexivity|left; reflexivity]|].
    destruct (lead_first Hl ltac:(discriminate)) as (b & y & -> & Hb). eexists _, _. split; [reflexivity|exact Hb].
  - right. right. right. eauto 6.
  - right. right. right. split; [exact He|]. split; [exact Hm|]. exact (lead_first Hl Hp).
Qed.
Lemma token_starts t v radix txt : written o m t v radix txt -> txt <> [] -> starts t txt.
Proof.
  intros HW Hn. destruct (written_first HW) as [(H & _)|[(e & -> & -> & H)|[(-> & H & _ & (s & ->))|(_ & _ & (b & y & -> & Hb))]]].
  - apply (text_starts H). intros ->. destruct (text_end_inv H). congruence.
  - destruct (Hq H) as (s & ->). apply starts_simple; [lia|reflexivity|discriminate].
  - apply starts_simple; [lia|reflexivity|discriminate].
  - apply mark_starts. exact Hb.
Qed.
Lemma token_nil t v radix : written o m t v radix [] -> t = TEnd /\ v = VNil /\ embedded m = false.
Proof.
  intros HW. destruct (written_first HW) as [(H & HE)|[(e & -> & -> & H)|[(-> & H & _ & (s & X))|(_ & _ & (b & y & X & Hb))]]]; try discriminate.
  - pose proof (text_end H) as ->. destruct (text_end_inv H) as [_ ->]. auto.
  - destruct (Hq H) as (s & X). discriminate.
Qed.
Lemma token_some t v radix txt : written o m t v radix txt -> t <> TEnd -> txt <> [].
Proof. intros HW Hn ->. apply Hn. exact (proj1 (token_nil HW)). Qed.
Lemma token_end_inv v radix txt : written o m TEnd v radix txt ->
  v = VNil /\ (embedded m = false /\ (txt = [] \/ o_epp o = true /\ txt <> [] /\ exists f, lead f true txt []) \/ embedded m = true /\ exists s, txt = "}"%ch :: s).
Proof.
  intros H. inversion H as [t' v' r' x HT HE| |r x HE|t' v' r f pre x He Hm Hp Hl Ht Hf| | |r f pre He Hm Hp Hl]; subst.
  - destruct (text_end_inv HT) as [-> ->]. auto.
  - split; [reflexivity|]. right. eauto.
  - destruct Hf as [Hf _]. destruct Hf. left. reflexivity.
  - split; [reflexivity|]. left. split; [exact Hm|]. right. eauto.
Qed.
Lemma stream_ascii p2 p ks : stream o m p2 p ks -> ascii_head (render ks).
Proof.
  destruct ks as [|k rest]; [left; reflexivity|]. cbn [stream]. intros (HT & HG & _ & _ & _ & HE & _). cbn [render flat_map]. fold (render rest).
  destruct (k_txt k) as [|b0 x0] eqn:Et.
  - destruct (token_nil HT) as (E1 & _ & Em). rewrite Em in HG. rewrite (HE E1). cbn [render flat_map]. rewrite !app_nil_r.
    assert (HG' : end_gap (k_gap k)) by (destruct HG as [HG|[_ HG]]; [econstructor; exact HG|exact HG]).
    destruct (end_gap_cases HG') as [->|(b & g' & -> & ? & _)]; [left; reflexivity|right; eauto].
  - assert (HG' : exists brk, gap brk (k_gap k)) by (destruct (embedded m); [destruct HG; eauto|destruct HG as [HG|[X _]]; [eauto|discriminate]]). destruct HG' as (brk & HG').
    rewrite <- app_assoc. apply (gap_ascii HG'). destruct (token_starts HT ltac:(discriminate)) as (b & s & -> & ? & _). right. eexists _, _. split; [reflexivity|lia].
Qed.
Lemma stream_colon p2 p ks s' : stream o m p2 p ks -> render ks = ":"%ch :: s' -> ~ double_colon (render ks) -> ascii_head s'.
Proof.
  destruct ks as [|k rest]; [discriminate|]. cbn [stream]. intros (HT & HG & _ & _ & _ & HE & HS) ER HD. cbn [render flat_map] in ER, HD. fold (render rest) in ER, HD.
  rewrite ER in HD. destruct (k_txt k) as [|b0 x0] eqn:Et.
  - destruct (token_nil HT) as (E1 & _ & Em). rewrite Em in HG. rewrite (HE E1) in ER. cbn [render flat_map] in ER. rewrite !app_nil_r in ER.
    assert (HG' : end_gap (k_gap k)) by (destruct HG as [HG|[_ HG]]; [econstructor; exact HG|exact HG]).
    destruct (end_gap_cases HG') as [Y|(b & g' & Y & _ & Z)]; rewrite Y in ER; [discriminate|]. inversion ER. subst. congruence.
  - assert (HG' : exists brk, gap brk (k_gap k)) by (destruct (embedded m); [destruct HG; eauto|destruct HG as [HG|[X _]]; [eauto|discriminate]]). destruct HG' as (brk & HG').
    destruct (k_gap k) as [|b g] eqn:Eg.
    + destruct (token_starts HT ltac:(discriminate)) as (b & s & Et' & _ & _ & _ & _ & HC & _). rewrite Et' in ER. cbn in ER. inversion ER; subst.
      destruct (HC eq_refl) as [[_ ->]|(s' & ->)]; [cbn; eapply stream_ascii; exact HS|]. destruct HD. eexists. reflexivity.
    + pose proof (@gap_no_colon _ _ ((b0 :: x0) ++ render rest) HG' ltac:(discriminate)) as K. rewrite app_assoc, ER in K. cbn in K. congruence.
Qed.
Lemma token_visible t v radix txt s : written o m t v radix txt -> txt <> [] -> ascii_head s -> ~ clash t txt s -> visible (txt ++ s) (first_byte txt) 1.
Proof.
  intros HW Hn HA HC. destruct (written_first HW) as [(H & _)|[(e & -> & -> & H)|[(-> & H & _ & (s' & ->))|(_ & _ & (b & y & -> & Hb))]]].
  - apply (text_visible H); auto. intros ->. destruct (text_end_inv H). congruence.
  - destruct (Hq H) as (s' & ->). cbn [app first_byte]. apply visible_solid; [apply head_ascii; lia|]. apply solid_spec. reflexivity.
  - cbn [app first_byte]. apply visible_solid; [apply head_ascii; lia|]. apply solid_spec. reflexivity.
  - cbn [app first_byte]. apply mark_visible. exact Hb.
Qed.
End Streams.
