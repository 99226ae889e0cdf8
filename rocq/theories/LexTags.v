(** * LexTags: nextToken walks over the tags of a template *)
From Verif Require Import Base Float Tokens Ast Ctx Lexer Parser Utf8Facts SpecReader ReaderProof LexBase SpecLex GapProof LexTokens LexPunct Evals LexStrings LexStream EppProof.
From Coq Require Import Lia ZifyBool.

(** the first thing on the current line is at [p] *)
Definition line (c : ctx) (p : Z) : Prop := exists pre g s r w,
  c_text c = pre ++ g ++ s /\ c_bol c = zlen pre /\ gap false g /\ visible s r w /\ p = zlen pre + zlen g.
Lemma line_eq c c' q : line c q -> c_text c' = c_text c -> c_bol c' = c_bol c -> line c' q.
Proof. intros (pre & g & s & r & w & H1 & H2 & H3) Ht Hb. exists pre, g, s, r, w. rewrite Ht, Hb. auto. Qed.
Lemma bol_line c brk g s r w b : at_ c (g ++ s) -> gap brk g -> visible s r w -> bol_after c brk g b -> brk = true -> line (with_bol b c) (c_pos c + zlen g).
Proof.
  intros (pre & HT & HP) HG HV HB ->. destruct HB as (g1 & g2 & -> & HG2 & ->). exists (pre ++ g1), g2, s, r, w. cbn [with_bol c_text c_bol].
  rewrite HT, HP, !zlen_app, <- !app_assoc. repeat split; auto. lia.
Qed.
(** what the lexer does not touch *)
Definition kin (c c' : ctx) : Prop := c_text c' = c_text c /\ c_opts c' = c_opts c /\ c_nls c' = c_nls c /\ c_names c' = c_names c /\ c_defs c' = c_defs c.
Lemma kin_trans c c1 c2 : kin c c1 -> kin c1 c2 -> kin c c2.
Proof. unfold kin. intuition congruence. Qed.
Notation ev_next c c1 := (evals (fun r => r unit FNextToken) c tt c1).
(** the state at the first character of a token *)
Definition token_at (g : str) (b : Z) (c : ctx) : ctx := with_tsp (c_pos c + zlen g) (with_bol b (fwd (zlen g) c)).
Lemma token_kin g b c : kin c (token_at g b c).
Proof. repeat split. Qed.
Lemma next_lex brk g txt s c : gap brk g -> at_ c (g ++ txt ++ s) -> c_nls c = -1 -> visible (txt ++ s) (first_byte txt) 1 ->
  exists b, bol_after c brk g b /\ at_ (token_at g b c) (txt ++ s) /\ forall c1, ev_lexes (c_pos c) txt (token_at g b c) c1 -> ev_next c c1.
Proof.
  intros HG H Hn HV. destruct (gap_skip HG H Hn HV) as (b & Hb & Es). exists b. split; [exact Hb|]. split; [eapply at_state; [exact (at_fwd H)|reflexivity|reflexivity]|].
  intros c1 HEv. apply ev_rec. cbn [body]. unfold nextToken_body. eapply ev_step; [reflexivity|]. eapply ev_step; [exact Es|]. cbv beta iota. eapply ev_step; [reflexivity|].
  eapply ev_from; [|exact HEv]. intros r. unfold token_at. rewrite <- fwd_fwd. reflexivity.
Qed.
(** the line of what comes after the gap *)
Definition near (P : Prop) (E : Z) (c : ctx) : Prop := P -> exists q, line c q /\ q <= E.
Lemma token_line P brk g s c b r w E : gap brk g -> at_ c (g ++ s) -> visible s r w -> bol_after c brk g b -> c_pos c + zlen g <= E -> (brk = false -> near P E c) ->
  near P E (token_at g b c).
Proof.
  intros HG H HV Hb HE HL. unfold token_at. destruct brk.
  - intros _. exists (c_pos c + zlen g). split; [|exact HE]. eapply line_eq; [exact (bol_line H HG HV Hb eq_refl)|reflexivity|reflexivity].
  - intros HP. destruct (HL eq_refl HP) as (q & Hq & Hle). exists q. split; [|exact Hle]. eapply line_eq; [exact Hq|reflexivity|exact Hb].
Qed.

(** ** Closing tags *)
Lemma epp_ev src out s c : said src s out -> tag_or_end s -> at_ c (encode src ++ s) ->
  forall c1, (if no_text (encode out) s then ev_next (after_text (encode out) s (fwd (zlen (encode src)) c)) c1 else c1 = after_text (encode out) s (fwd (zlen (encode src)) c)) ->
  evals (fun r => consumeEPP r) c tt c1.
Proof.
  intros HS HG H c1 H1. unfold consumeEPP. eapply ev_step; [exact (epp_loop HS HG H)|]. destruct (no_text (encode out) s); [exact H1|]. rewrite H1. apply ev_ret.
Qed.
Lemma text_head src s out : said src s out -> tag_or_end s -> exists r w, head_rune (encode src ++ s) = Some (r, w)
  /\ (forall c s', encode src ++ s = c :: s' -> c <> 32 /\ c <> 9 /\ c <> 10 -> r <> 32 /\ r <> 9 /\ r <> 10) /\ (encode src ++ s = [] -> r = 0).
Proof.
  intros (out0 & HT & _) HG. pose proof (proj1 (text_ok HT)) as HF. destruct HF as [|r src Hr _].
  - destruct HG as [->|(s' & -> & _)]; [exists 0, 0; split; [reflexivity|split; [discriminate|reflexivity]]|].
    exists "<"%ch, 1. split; [reflexivity|]. split; [|discriminate]. intros. split; [discriminate|split; discriminate].
  - exists r, (zlen (encode_rune r)). split; [apply head_more; exact Hr|]. split.
    + intros x y E N. rewrite encode_cons in E. assert (K : r = 32 \/ r = 9 \/ r = 10 -> x = r).
      { intros K. rewrite (ascii_width (r := r)) in E by lia. cbn [app] in E. congruence. }
      lia.
    + intros E. pose proof (@encode_rune_nonempty r) as K. rewrite encode_cons in E. apply app_eq_nil in E. destruct E as [E _]. apply app_eq_nil in E. tauto.
Qed.
Lemma close_lex scan cl src out s c0 : closes cl (encode src ++ s) -> said src s out -> tag_or_end s -> o_epp (c_opts c0) = true -> at_ c0 (cl ++ encode src ++ s) ->
  exists c2, kin c0 c2 /\ c_bol c2 = c_bol c0 /\ at_ c2 s /\ c_pos c2 = c_pos c0 + zlen cl + zlen (encode src)
    /\ c_tok c2 = (match s, encode out with [], [] => TEnd | _, _ => TRenderString end) /\ c_val c2 = (match s, encode out with [], [] => VNil | _, _ => VStr (encode out) end)
    /\ forall c1, (if no_text (encode out) s then ev_next c2 c1 else c1 = c2) -> ev_lexes scan cl c0 c1.
Proof.
  intros HC HS HG He H.
  assert (K : forall c3, kin c0 c3 -> c_bol c3 = c_bol c0 -> c_pos c3 = c_pos c0 + zlen cl ->
    (forall c1, evals (fun r => consumeEPP r) c3 tt c1 -> ev_lexes scan cl c0 c1) ->
    exists c2, kin c0 c2 /\ c_bol c2 = c_bol c0 /\ at_ c2 s /\ c_pos c2 = c_pos c0 + zlen cl + zlen (encode src)
    /\ c_tok c2 = (match s, encode out with [], [] => TEnd | _, _ => TRenderString end) /\ c_val c2 = (match s, encode out with [], [] => VNil | _, _ => VStr (encode out) end)
    /\ forall c1, (if no_text (encode out) s then ev_next c2 c1 else c1 = c2) -> ev_lexes scan cl c0 c1).
  { intros c3 Hk Hb Hp HE. assert (H3 : at_ c3 (encode src ++ s)) by (eapply at_state; [exact (at_fwd H)|exact (proj1 Hk)|exact Hp]).
    exists (after_text (encode out) s (fwd (zlen (encode src)) c3)).
    assert (Q : exists t v, after_text (encode out) s (fwd (zlen (encode src)) c3) = with_tok t v (fwd (zlen (encode src)) c3)
       /\ t = (match s, encode out with [], [] => TEnd | _, _ => TRenderString end) /\ v = (match s, encode out with [], [] => VNil | _, _ => VStr (encode out) end)).
    { unfold after_text. destruct s, (encode out); eexists _, _; split; try reflexivity; split; reflexivity. }
    pose proof (epp_ev HS HG H3) as HEv. destruct Q as (t & v & Q & Qt & Qv). rewrite Q in *. split; [exact Hk|]. split; [exact Hb|].
    split; [eapply at_state; [exact (at_fwd H3)|reflexivity|reflexivity]|]. split; [cbn; lia|]. split; [exact Qt|]. split; [exact Qv|]. intros c1 X. apply HE. apply HEv. exact X. }
  destruct HC as [->|(b & Hb & HC)].
  - pose proof (at_fwd1 H) as H1. apply (K (fwd 1 (with_tok TRemainder VNil (fwd 1 c0)))); [repeat split|reflexivity|cbn; lia|]. intros c1 X. unfold ev_lexes.
    apply (@ev_same _ _ (fun r => lex_percent r)); [reflexivity|]. unfold lex_percent. eapply ev_step; [reflexivity|]. eapply ev_step; [reflexivity|]. cbn [with_tok fwd with_pos c_opts]. rewrite He. cbv iota.
    assert (H1' : at_ (with_tok TRemainder VNil (fwd 1 c0)) (">"%ch :: encode src ++ s)) by (eapply at_state; [exact H1|reflexivity|reflexivity]).
    eapply ev_step; [exact (at_peek H1' eq_refl)|]. cbv beta iota. change (">"%ch =? ">"%ch) with true. cbv iota. eapply ev_step; [reflexivity|]. exact X.
  - assert (L : forall nl tl, cl = "-"%ch :: "%"%ch :: ">"%ch :: b ++ nl -> at_ (fwd 1 (fwd 1 (fwd 1 c0))) (b ++ nl ++ tl) -> forall r w, head_rune (nl ++ tl) = Some (r, w) -> r <> 32 -> r <> 9 ->
        (if r =? 10 then w = zlen nl else nl = []) -> forall c1, evals (fun r => consumeEPP r) (fwd (zlen nl) (fwd (zlen b) (fwd 1 (fwd 1 (fwd 1 c0))))) tt c1 -> ev_lexes scan cl c0 c1).
    { intros nl tl E H4 r w Hh N1 N2 HN c1 X. unfold ev_lexes. rewrite E. apply (@ev_same _ _ (fun r => lex_minus r)); [reflexivity|]. unfold lex_minus.
      rewrite E in H. assert (H0 : at_ c0 ("-"%ch :: "%"%ch :: ">"%ch :: (b ++ nl) ++ encode src ++ s)) by exact H.
      pose proof (at_fwd1 H0) as H1. pose proof (at_fwd1 H1) as H2. pose proof (at_fwd1 H2) as H3.
      eapply ev_step; [exact (at_peek H1 eq_refl)|]. cbv beta iota. eapply ev_step; [reflexivity|]. cbn [fwd with_pos c_opts]. rewrite He.
      change ("%"%ch =? "="%ch) with false. change ("%"%ch =? ">"%ch) with false. change (("%"%ch =? "%"%ch) && true) with true. cbv iota.
      eapply ev_step; [reflexivity|]. eapply ev_step; [exact (at_peek H2 eq_refl)|]. cbv beta iota. change (">"%ch =? ">"%ch) with true. cbv iota. eapply ev_step; [reflexivity|].
      eapply ev_step; [eapply at_skip_while; [exact H4| |exact Hh|]|].
      - eapply Forall_impl; [|exact Hb]. cbn. intros a Ha. lia.
      - change (" "%ch) with 32. lia.
      - cbv beta iota. destruct (Z.eqb_spec r 10) as [->|Hne].
        + eapply ev_step; [reflexivity|]. rewrite <- HN in X. exact X.
        + eapply ev_step; [reflexivity|]. subst nl. change (zlen (@nil Z)) with 0 in X. rewrite fwd_0 in X. exact X. }
    destruct HC as [E|[E HN]].
    + apply (K (fwd 1 (fwd (zlen b) (fwd 1 (fwd 1 (fwd 1 c0)))))); [repeat split|reflexivity|rewrite E, !fwd_fwd, !zlen_cons, zlen_app; change (zlen [10]) with 1; cbn; lia|].
      intros c1 X. rewrite E in H. apply (L [10] (encode src ++ s) E) with (r := 10) (w := 1); [|reflexivity|discriminate|discriminate|reflexivity|exact X].
      assert (H0 : at_ c0 ("-"%ch :: "%"%ch :: ">"%ch :: b ++ [10] ++ encode src ++ s)) by (cbn [app] in H; rewrite <- app_assoc in H; exact H).
      exact (at_fwd1 (at_fwd1 (at_fwd1 H0))).
    + apply (K (fwd 0 (fwd (zlen b) (fwd 1 (fwd 1 (fwd 1 c0)))))); [repeat split|reflexivity|rewrite E, !fwd_fwd, !zlen_cons; cbn; lia|].
      intros c1 X. rewrite E in H. destruct (text_head HS HG) as (r & w & Hh & Hr & Hz).
      assert (Hr' : r <> 32 /\ r <> 9 /\ r <> 10). { destruct (encode src ++ s) as [|x y] eqn:Ex; [rewrite (Hz eq_refl); lia|]. eapply Hr; [reflexivity|]. eapply HN. reflexivity. }
      apply (L [] (encode src ++ s)) with (r := r) (w := w); [rewrite app_nil_r; exact E| |exact Hh|tauto|tauto| |exact X].
      * cbn [app]. exact (at_fwd1 (at_fwd1 (at_fwd1 (c := c0) H))).
      * destruct (Z.eqb_spec r 10); [tauto|reflexivity].
Qed.

(** ** What comes after the tags *)
Lemma starts_more (l r p : list Z) : (List.length p <= List.length l)%nat -> starts_with (l ++ r) p <-> starts_with l p.
Proof.
  intros HL. split; intros (s' & E).
  - exists (skipn (List.length p) l). apply (f_equal (firstn (List.length p))) in E. rewrite !firstn_app, Nat.sub_diag, firstn_all, firstn_O, app_nil_r in E.
    replace (List.length p - List.length l)%nat with O in E by lia. rewrite firstn_O, app_nil_r in E. rewrite <- E at 1. symmetry. apply firstn_skipn.
  - exists (s' ++ r). rewrite E, <- app_assoc. reflexivity.
Qed.
Lemma tag_more l r : (3 <= List.length l)%nat -> tag_or_end l -> tag_or_end (l ++ r).
Proof.
  intros HL [->|(s' & -> & [->|(c & s'' & -> & H)])]; [cbn in HL; lia|cbn in HL; lia|]. right. exists (c :: s'' ++ r). split; [reflexivity|]. right. eauto.
Qed.
Lemma said_more src l out r : (3 <= List.length l)%nat -> said src l out -> said src (l ++ r) out.
Proof.
  intros HL (out0 & HT & H). exists out0. split; [exact HT|]. rewrite !starts_more by exact HL. exact H.
Qed.
Lemma closes_more cl u r : u <> [] -> closes cl u -> closes cl (u ++ r).
Proof.
  intros Hn [H|(b & Hb & [H|[H1 H2]])]; [left; exact H|right; exists b; auto|right; exists b; split; [exact Hb|right]]. split; [exact H1|]. intros c s' E. destruct u as [|x u]; [congruence|]. cbn in E. injection E as <- <-. eapply H2. reflexivity.
Qed.
Lemma lead_long t t' x s : lead t t' x s -> s <> [] -> (t' = true -> (3 <= List.length s)%nat) -> t = true -> (3 <= List.length (x ++ s))%nat.
Proof.
  intros H Hn Ht E. destruct H as [t0 s0|t0 dash brk g x0 s0 Hd Hg Hl|]; [cbn; auto| |discriminate].
  cbn [app List.length]. rewrite !app_length. destruct s0; [congruence|]. cbn. lia.
Qed.
Lemma lead_more t t' x s r : lead t t' x s -> s <> [] -> (t' = true -> (3 <= List.length s)%nat) -> lead t t' x (s ++ r).
Proof.
  intros H. induction H as [t0 s0|t0 dash brk g x0 s0 Hd Hg Hl IH|t0 cl src x0 s0 Hc Hs Ht Hl IH]; intros Hn H3; [constructor| |].
  - econstructor; [|exact Hg|auto]. destruct Hd as [Hd|[Hd1 Hd2]]; [auto|right; split; [exact Hd1|]].
    replace (first_byte (g ++ x0 ++ s0 ++ r)) with (first_byte (g ++ x0 ++ s0)); [exact Hd2|]. destruct g; [|reflexivity]. destruct x0; [|reflexivity]. destruct s0; [congruence|reflexivity].
  - pose proof (lead_long Hl Hn H3 eq_refl) as HL. constructor; rewrite ?(app_assoc x0 s0 r).
    + rewrite (app_assoc (encode src)). apply closes_more; [|exact Hc]. intros X. apply app_eq_nil in X. destruct X as [_ X]. rewrite X in HL. cbn in HL. lia.
    + apply said_more; assumption.
    + apply tag_more; assumption.
    + auto.
Qed.
(** ** Walking over tags *)
Lemma open_lex scan dash s c0 : dash = ["-"%ch] \/ dash = [] /\ ~ one_of (first_byte s) "%#=-" -> ascii_head s \/ dash <> [] -> o_epp (c_opts c0) = true -> at_ c0 ("<"%ch :: "%"%ch :: dash ++ s) ->
  forall c1, ev_next (fwd (2 + zlen dash) c0) c1 -> ev_lexes scan ("<"%ch :: "%"%ch :: dash) c0 c1.
Proof.
  intros Hd HA He H c1 X. unfold ev_lexes. apply (@ev_same _ _ (fun r => lex_less r)); [reflexivity|]. unfold lex_less.
  pose proof (at_fwd1 H) as H1. pose proof (at_fwd1 H1) as H2. eapply ev_step; [exact (at_peek H1 eq_refl)|]. cbv beta iota. eapply ev_step; [reflexivity|]. cbn [fwd with_pos c_opts]. rewrite He.
  change ("%"%ch =? "="%ch) with false. change ("%"%ch =? "<"%ch) with false. change ("%"%ch =? "|"%ch) with false. change ("%"%ch =? "-"%ch) with false. change ("%"%ch =? "~"%ch) with false.
  change (("%"%ch =? "%"%ch) && true) with true. cbv iota. eapply ev_step; [reflexivity|].
  destruct Hd as [->|[-> Hd]].
  - eapply ev_step; [exact (at_peek H2 eq_refl)|]. cbv beta iota. change ("-"%ch =? "="%ch) with false. change ("-"%ch =? "-"%ch) with true. cbv iota. eapply ev_step; [reflexivity|].
    change (zlen ["-"%ch]) with 1 in X. change (2 + 1) with (1 + 1 + 1) in X. rewrite <- !fwd_fwd in X. exact X.
  - change (zlen (@nil Z)) with 0 in X. change (2 + 0) with (1 + 1) in X. rewrite <- fwd_fwd in X. cbn [app] in H2. destruct HA as [HA|HA]; [|congruence]. destruct (ascii_head_rune HA) as (w & Hw). eapply ev_step; [exact (at_peek H2 Hw)|]. cbv beta iota.
    destruct (Z.eqb_spec (first_byte s) "="%ch) as [E|_]; [destruct Hd; rewrite E; cbn; auto|]. destruct (Z.eqb_spec (first_byte s) "-"%ch) as [E|_]; [destruct Hd; rewrite E; cbn; auto|].
    exact X.
Qed.
Lemma lead_ascii t t' x s : lead t t' x s -> ascii_head s -> ascii_head (x ++ s).
Proof.
  intros H HA. destruct x as [|b0 x0] eqn:E; [exact HA|]. rewrite <- E in *. destruct (lead_first H ltac:(congruence)) as (b & y & -> & Hb). right. exists b, (y ++ s). split; [reflexivity|].
  destruct Hb as [<-|[<-|[<-|[]]]]; split; (reflexivity || discriminate).
Qed.
Theorem lead_next P t t' x s E : lead t t' x s -> ascii_head s -> s <> [] ->
  forall brk g c, gap brk g -> at_ c (g ++ x ++ s) -> c_nls c = -1 -> o_epp (c_opts c) = true -> c_pos c + zlen g + zlen x <= E -> (brk = false -> near P E c) ->
  exists c' brk' g', gap brk' g' /\ at_ c' (g' ++ s) /\ kin c c' /\ c_pos c' + zlen g' = c_pos c + zlen g + zlen x
    /\ (brk' = false -> near P E c') /\ forall c1, ev_next c' c1 -> ev_next c c1.
Proof.
  intros H. induction H as [t0 s0|t0 dash brk1 g1 x0 s0 Hd Hg1 Hl IH|t0 cl src x0 s0 Hc Hs Ht Hl IH]; intros HA Hn brk g c Hg H Hnl He HE0 HL.
  - exists c, brk, g. split; [exact Hg|]. split; [exact H|]. split; [repeat split|]. split; [change (zlen (@nil Z)) with 0; lia|]. auto.
  - specialize (IH HA Hn). assert (EE : ("<"%ch :: "%"%ch :: dash ++ g1 ++ x0) ++ s0 = ("<"%ch :: "%"%ch :: dash) ++ g1 ++ x0 ++ s0) by (cbn [app]; rewrite <- !app_assoc; reflexivity).
    rewrite EE in H.
    assert (HE1 : c_pos c + zlen g <= E /\ c_pos c + zlen g + (2 + zlen dash) + zlen g1 + zlen x0 <= E). { rewrite !zlen_cons, !zlen_app in HE0. pose proof (zlen_nonneg dash). pose proof (zlen_nonneg g1). pose proof (zlen_nonneg x0). lia. }
    destruct HE1 as [HE1 HE2].
    assert (HV : visible (("<"%ch :: "%"%ch :: dash) ++ g1 ++ x0 ++ s0) (first_byte ("<"%ch :: "%"%ch :: dash)) 1) by (apply mark_visible; left; reflexivity).
    destruct (next_lex Hg H Hnl HV) as (b & Hb & H0 & HE). pose proof (token_line Hg H HV Hb HE1 HL) as HN1.
    set (c0 := token_at g b c) in *. pose proof (at_fwd H0) as H2.
    destruct (IH brk1 g1 (fwd (zlen ("<"%ch :: "%"%ch :: dash)) c0) Hg1 H2 Hnl He) as (c' & brk' & g' & A1 & A2 & A3 & A4 & A5 & A6).
    { unfold c0, token_at. cbn [fwd with_pos with_tsp with_bol c_pos]. rewrite !zlen_cons. lia. }
    { intros _ HP. destruct (HN1 HP) as (q & Hq & Hle). exists q. split; [exact (@line_eq c0 _ _ Hq eq_refl eq_refl)|exact Hle]. }
    exists c', brk', g'. split; [exact A1|]. split; [exact A2|]. split; [exact A3|]. split; [|split; [exact A5|]].
    + unfold c0, token_at in A4. cbn [fwd with_pos with_tsp with_bol c_pos] in A4. rewrite !zlen_cons, ?zlen_app in *. lia.
    + intros c1 X. apply HE. eapply (open_lex _ (s := g1 ++ x0 ++ s0)); [exact Hd|left; eapply gap_ascii; [exact Hg1|eapply lead_ascii; eassumption]|exact He|exact H0|].
      apply A6 in X. rewrite !zlen_cons in X. replace (1 + (1 + zlen dash)) with (2 + zlen dash) in X by lia. exact X.
  - specialize (IH HA Hn). rewrite <- !app_assoc in H. destruct (closes_first Hc) as (b0 & y0 & Ecl & Hb0). rewrite !zlen_app in HE0.
    pose proof (zlen_nonneg cl) as Z1. pose proof (zlen_nonneg (encode src)) as Z2. pose proof (zlen_nonneg x0) as Z3.
    assert (HV : visible (cl ++ encode src ++ x0 ++ s0) (first_byte cl) 1) by (rewrite Ecl; apply mark_visible; exact Hb0).
    destruct (next_lex Hg H Hnl HV) as (b & Hb & H0 & HE). pose proof (@token_line P _ _ _ _ _ _ _ E Hg H HV Hb ltac:(lia) HL) as HN1.
    set (c0 := token_at g b c) in *.
    destruct (close_lex (c_pos c) Hc Hs Ht (c0 := c0) He H0) as (c2 & B1 & B2 & B3 & B4 & B5 & B6 & B7).
    assert (E1 : no_text (encode []) (x0 ++ s0) = true). { unfold no_text. change (encode []) with (@nil Z). destruct (x0 ++ s0) eqn:X; [|reflexivity]. apply app_eq_nil in X. tauto. }
    rewrite E1 in B7.
    assert (K0 : kin c c2) by (eapply kin_trans; [apply token_kin|exact B1]). destruct K0 as (K1 & K2 & K3 & K4 & K5).
    assert (P0 : c_pos c0 = c_pos c + zlen g) by reflexivity.
    destruct (IH false [] c2 gap_nil B3 ltac:(congruence) ltac:(congruence)) as (c' & brk' & g' & A1 & A2 & A3 & A4 & A5 & A6).
    { change (zlen (@nil Z)) with 0. lia. }
    { intros _ HP. destruct (HN1 HP) as (q & Hq & Hle). exists q. split; [exact (@line_eq c0 _ _ Hq (proj1 B1) B2)|exact Hle]. }
    exists c', brk', g'. split; [exact A1|]. split; [exact A2|]. split; [eapply kin_trans; [|exact A3]; repeat split; assumption|]. split; [|split; [exact A5|]].
    + rewrite A4, B4, !zlen_app. change (zlen (@nil Z)) with 0. lia.
    + intros c1 X. apply HE. apply B7. apply A6. exact X.
Qed.

Lemma next_end c g : end_gap g -> at_ c g -> c_nls c = -1 -> exists c1, ev_next c c1 /\ kin c c1 /\ c_tok c1 = TEnd /\ c_val c1 = VNil /\ c_pos c1 = c_pos c + zlen g.
Proof.
  intros HG H Hn. destruct (end_gap_skip HG H Hn) as (b & Es). eexists. split.
  - apply ev_rec. apply ev_all. intros r. cbn [body]. unfold nextToken_body. unfold bind at 1, getPos, ask. rewrite (bind_ok _ Es). unfold bind, modify.
    change (lex_token r (c_pos c) (c_pos c + zlen g) 0) with (setToken TEnd). reflexivity.
  - repeat split.
Qed.
Theorem lead_end t t' x s : lead t t' x s -> s = [] -> t' = true ->
  forall brk g c, gap brk g -> at_ c (g ++ x) -> c_nls c = -1 -> o_epp (c_opts c) = true ->
  exists c1, ev_next c c1 /\ kin c c1 /\ c_tok c1 = TEnd /\ c_val c1 = VNil /\ c_pos c1 = c_pos c + zlen g + zlen x.
Proof.
  intros H. induction H as [t0 s0|t0 dash brk1 g1 x0 s0 Hd Hg1 Hl IH|t0 cl src x0 s0 Hc Hs Ht Hl IH]; intros Es Et brk g c Hg H Hnl He.
  - rewrite app_nil_r in H. change (zlen (@nil Z)) with 0. rewrite Z.add_0_r. apply next_end; [econstructor; exact Hg|exact H|exact Hnl].
  - specialize (IH Es Et). subst s0. assert (EE : "<"%ch :: "%"%ch :: dash ++ g1 ++ x0 = ("<"%ch :: "%"%ch :: dash) ++ g1 ++ x0) by reflexivity.
    rewrite EE in H.
    assert (HV : visible (("<"%ch :: "%"%ch :: dash) ++ g1 ++ x0) (first_byte ("<"%ch :: "%"%ch :: dash)) 1) by (apply mark_visible; left; reflexivity).
    destruct (next_lex Hg H Hnl HV) as (b & Hb & H0 & HE).
    set (c0 := token_at g b c) in *. pose proof (at_fwd H0) as H2.
    destruct (IH brk1 g1 (fwd (zlen ("<"%ch :: "%"%ch :: dash)) c0) Hg1 H2 Hnl He) as (c1 & A1 & A2 & A3 & A4 & A5).
    exists c1. split; [|split; [exact A2|split; [exact A3|split; [exact A4|]]]].
    + apply HE. rewrite app_nil_r in Hd. eapply (open_lex _ (s := g1 ++ x0)); [exact Hd|left; eapply gap_ascii; [exact Hg1|rewrite <- (app_nil_r x0); eapply lead_ascii; [exact Hl|left; reflexivity]]|exact He|exact H0|].
      rewrite !zlen_cons in A1. replace (1 + (1 + zlen dash)) with (2 + zlen dash) in A1 by lia. exact A1.
    + unfold c0, token_at in A5. cbn [fwd with_pos with_tsp with_bol c_pos] in A5. rewrite !zlen_cons, ?zlen_app in *. lia.
  - specialize (IH Es Et). subst s0. rewrite app_nil_r in Hc, Hs, Ht. destruct (closes_first Hc) as (b0 & y0 & Ecl & Hb0).
    assert (HV : visible (cl ++ encode src ++ x0) (first_byte cl) 1) by (rewrite Ecl; apply mark_visible; exact Hb0).
    destruct (next_lex Hg H Hnl HV) as (b & Hb & H0 & HE). set (c0 := token_at g b c) in *.
    destruct (close_lex (c_pos c) Hc Hs Ht (c0 := c0) He H0) as (c2 & B1 & B2 & B3 & B4 & B5 & B6 & B7).
    assert (K0 : kin c c2) by (eapply kin_trans; [apply token_kin|exact B1]).
    assert (P2 : c_pos c2 + zlen x0 = c_pos c + zlen g + zlen (cl ++ encode src ++ x0)). { rewrite B4, !zlen_app. unfold c0, token_at. cbn [fwd with_pos with_tsp with_bol c_pos]. lia. }
    destruct x0 as [|x1 x2] eqn:Ex.
    + exists c2. split; [apply HE; apply B7; reflexivity|]. split; [exact K0|]. split; [exact B5|]. split; [exact B6|]. rewrite <- P2. change (zlen (@nil Z)) with 0. lia.
    + destruct K0 as (K1 & K2 & K3 & K4 & K5). destruct (IH false [] c2 gap_nil B3 ltac:(congruence) ltac:(congruence)) as (c1 & A1 & A2 & A3 & A4 & A5).
      exists c1. split; [apply HE; apply B7; exact A1|]. split; [eapply kin_trans; [|exact A2]; repeat split; assumption|]. split; [exact A3|]. split; [exact A4|]. rewrite A5, <- P2. change (zlen (@nil Z)) with 0. lia.
Qed.
Theorem text_next x s v brk g c : text_token x s v -> gap brk g -> at_ c (g ++ x ++ s) -> c_nls c = -1 -> o_epp (c_opts c) = true -> (brk = false -> exists q, line c q /\ q < c_pos c + zlen g + zlen x) ->
  exists c1, ev_next c c1 /\ kin c c1 /\ c_tok c1 = TRenderString /\ c_val c1 = v /\ c_pos c1 = c_pos c + zlen g + zlen x /\ exists q, line c1 q /\ q < c_pos c1.
Proof.
  intros (t & pre & cl & src & out & -> & Hl & Hc & Hs & Ht & Ho & ->) Hg H Hnl He HL. rewrite <- !app_assoc in H.
  destruct (closes_first Hc) as (b0 & y0 & Ecl & Hb0).
  assert (HA : ascii_head (cl ++ encode src ++ s)). { rewrite Ecl. right. exists b0, (y0 ++ encode src ++ s). split; [reflexivity|]. destruct Hb0 as [<-|[<-|[<-|[]]]]; split; (reflexivity || discriminate). }
  assert (Hl' : lead t false pre (cl ++ encode src ++ s)) by (apply lead_more; [exact Hl|rewrite Ecl; discriminate|discriminate]).
  set (E := c_pos c + zlen g + zlen (pre ++ cl ++ encode src) - 1).
  assert (Hcl : 0 < zlen cl) by (rewrite Ecl, zlen_cons; pose proof (zlen_nonneg y0); lia). pose proof (zlen_nonneg (encode src)) as Hsr.
  assert (HE0 : c_pos c + zlen g + zlen pre <= E) by (unfold E; rewrite !zlen_app; lia).
  assert (HL' : brk = false -> near True E c) by (intros X _; destruct (HL X) as (q & Hq & Hle); exists q; split; [exact Hq|unfold E; lia]).
  destruct (lead_next (E := E) Hl' HA ltac:(rewrite Ecl; discriminate) Hg H Hnl He HE0 HL') as (c' & brk' & g' & A1 & A2 & A3 & A4 & A5 & A6).
  assert (HV : visible (cl ++ encode src ++ s) (first_byte cl) 1) by (rewrite Ecl; apply mark_visible; exact Hb0).
  destruct A3 as (K1 & K2 & K3 & K4 & K5).
  destruct (next_lex A1 A2 ltac:(congruence) HV) as (b & Hb & H0 & HE). destruct (@token_line True _ _ _ _ _ _ _ E A1 A2 HV Hb ltac:(lia) A5 Logic.I) as (q & Hq & Hle). set (c0 := token_at g' b c') in *.
  assert (He' : o_epp (c_opts c0) = true) by (change (c_opts c0) with (c_opts c'); congruence).
  destruct (close_lex (c_pos c') Hc Hs Ht (c0 := c0) He' H0) as (c2 & B1 & B2 & B3 & B4 & B5 & B6 & B7).
  assert (En : exists z zs, encode out = z :: zs). { destruct out as [|r out]; [congruence|]. rewrite encode_cons. pose proof (@encode_rune_nonempty r). destruct (encode_rune r); [congruence|]. eexists _, _. reflexivity. }
  destruct En as (z & zs & En). rewrite En in B5, B6, B7 |- *. assert (E1 : no_text (z :: zs) s = false) by (destruct s; reflexivity). rewrite E1 in B7.
  exists c2. split; [apply A6; apply HE; apply B7; reflexivity|]. split; [eapply kin_trans; [|exact B1]; repeat split; assumption|]. split; [destruct s; exact B5|]. split; [destruct s; exact B6|].
  assert (P : c_pos c2 = c_pos c + zlen g + zlen (pre ++ cl ++ encode src)). { rewrite B4, !zlen_app. unfold c0, token_at. cbn [fwd with_pos with_tsp with_bol c_pos]. lia. }
  split; [exact P|]. exists q. split; [exact (@line_eq c0 _ _ Hq (proj1 B1) B2)|]. rewrite P. unfold E in Hle. lia.
Qed.
Theorem render_next f pre s brk g c : lead f true pre (lit "<%=") -> gap brk g -> at_ c (g ++ (pre ++ lit "<%=") ++ s) -> c_nls c = -1 -> o_epp (c_opts c) = true -> (brk = false -> exists q, line c q /\ q < c_pos c + zlen g + zlen (pre ++ lit "<%=")) ->
  exists c1, ev_next c c1 /\ kin c c1 /\ c_tok c1 = TRenderExpr /\ c_val c1 = VNil /\ c_pos c1 = c_pos c + zlen g + zlen (pre ++ lit "<%=") /\ exists q, line c1 q /\ q < c_pos c1.
Proof.
  intros Hl Hg H Hnl He HL. rewrite <- !app_assoc in H.
  assert (HA : ascii_head (lit "<%=" ++ s)) by (right; eexists _, _; split; [reflexivity|split; (reflexivity || discriminate)]).
  assert (Hl' : lead f true pre (lit "<%=" ++ s)) by (apply lead_more; [exact Hl|discriminate|intros _; cbn; lia]).
  set (E := c_pos c + zlen g + zlen (pre ++ lit "<%=") - 1).
  assert (HE0 : c_pos c + zlen g + zlen pre <= E) by (unfold E; rewrite !zlen_app; change (zlen (lit "<%=")) with 3; lia).
  assert (HL' : brk = false -> near True E c) by (intros X _; destruct (HL X) as (q & Hq & Hle); exists q; split; [exact Hq|unfold E; lia]).
  destruct (lead_next (E := E) Hl' HA ltac:(discriminate) Hg H Hnl He HE0 HL') as (c' & brk' & g' & A1 & A2 & A3 & A4 & A5 & A6).
  assert (HV : visible (lit "<%=" ++ s) (first_byte (lit "<%=")) 1) by (apply mark_visible; left; reflexivity).
  destruct A3 as (K1 & K2 & K3 & K4 & K5).
  destruct (next_lex A1 A2 ltac:(congruence) HV) as (b & Hb & H0 & HE). destruct (@token_line True _ _ _ _ _ _ _ E A1 A2 HV Hb ltac:(lia) A5 Logic.I) as (q & Hq & Hle). set (c0 := token_at g' b c') in *.
  assert (He' : o_epp (c_opts c0) = true) by (change (c_opts c0) with (c_opts c'); congruence).
  pose proof (at_fwd1 (c := c0) (b := "<"%ch) H0) as H1. pose proof (at_fwd1 (c := fwd 1 c0) (b := "%"%ch) H1) as H2. cbn [app] in H1, H2.
  exists (with_tok TRenderExpr VNil (fwd 1 (fwd 1 (fwd 1 c0)))).
  assert (P : c_pos c0 + 3 = c_pos c + zlen g + zlen (pre ++ lit "<%=")). { rewrite zlen_app. change (zlen (lit "<%=")) with 3. unfold c0, token_at. cbn [fwd with_pos with_tsp with_bol c_pos]. lia. }
  split; [|split; [|split; [reflexivity|split; [reflexivity|split]]]].
  - apply A6, HE. unfold ev_lexes. apply (@ev_same _ _ (fun r => lex_less r)); [reflexivity|]. unfold lex_less.
    eapply ev_step; [exact (at_peek H1 eq_refl)|]. cbv beta iota. eapply ev_step; [reflexivity|]. cbn [fwd with_pos c_opts]. rewrite He'.
    change ("%"%ch =? "="%ch) with false. change ("%"%ch =? "<"%ch) with false. change ("%"%ch =? "|"%ch) with false. change ("%"%ch =? "-"%ch) with false. change ("%"%ch =? "~"%ch) with false.
    change (("%"%ch =? "%"%ch) && true) with true. cbv iota. eapply ev_step; [reflexivity|]. eapply ev_step; [exact (at_peek H2 eq_refl)|]. cbv beta iota. change ("="%ch =? "="%ch) with true. cbv iota.
    apply ev_const. reflexivity.
  - repeat split; assumption.
  - cbn [with_tok fwd with_pos c_pos]. lia.
  - exists q. split; [exact (@line_eq c0 _ _ Hq eq_refl eq_refl)|]. unfold E in Hle. cbn [with_tok fwd with_pos c_pos]. lia.
Qed.
