(** * LexErr: what nextToken does on text that is not a token *)
From Verif Require Import Base Float Tokens Ast Ctx Lexer Parser Utf8Facts SpecReader ReaderProof LexBase SpecLex GapProof LexTokens Evals LexStrings LexStream SpecLexErr.
From Coq Require Import Lia ZifyBool.

(** [yields m c o]: with enough fuel, the outcome of [m] is [o] *)
Definition yields (A : Type) (m : recT -> M A) (c : ctx) (o : res A) : Prop := exists n0, forall n, (n0 <= n)%nat -> m (run n) c = o.
Lemma y_step A B (m : M A) (k : recT -> A -> M B) c a c1 o : m c = Ok a c1 -> yields (fun r => k r a) c1 o -> yields (fun r => bind m (k r)) c o.
Proof. intros H (n & K). exists n. intros n' Hn. unfold bind. rewrite H. auto. Qed.
Lemma y_rec A (f : fn A) c o : yields (fun r => body r f) c o -> yields (fun r => r A f) c o.
Proof. intros (n & H). exists (S n). intros k Hk. destruct k as [|k]; [lia|]. cbn [run]. apply H. lia. Qed.
Lemma y_from A (m m' : recT -> M A) c c1 o : (forall r, m r c = m' r c1) -> yields m' c1 o -> yields m c o.
Proof. intros E (n & H). exists n. intros k Hk. rewrite E. auto. Qed.
Lemma y_all A (m : recT -> M A) c o : (forall r, m r c = o) -> yields m c o.
Proof. intros H. exists O. auto. Qed.
Lemma y_fails A B (m : recT -> M A) (k : recT -> A -> M B) c e c1 : yields m c (Err e c1) -> yields (fun r => bind (m r) (k r)) c (Err e c1).
Proof. intros (n & H). exists n. intros n' Hn. unfold bind. rewrite H by exact Hn. reflexivity. Qed.

Lemma begins_head s r : begins s r -> exists w, head_rune s = Some (r, w).
Proof.
  intros [|s'|r' s' (H1 & H2 & H3)]; [exists 0; reflexivity|exists 1; reflexivity|]. exists (zlen (encode_rune r')). now apply head_encode.
Qed.
Lemma ends_head s : ends s -> exists w, head_rune s = Some (0, w). Proof. apply begins_head. Qed.
Lemma begins_range s r : begins s r -> 0 <= r.
Proof. intros [| |r' s' (H & _)]; try lia. unfold valid_rune in H. lia. Qed.

Section Fails.
Variables (code : icode) (a : args).
Lemma y_issue A c p : c_pos c = p -> yields (fun _ => @issue2 A code a) c (Err (Issue code a p) c).
Proof. intros <-. apply y_all. reflexivity. Qed.
(** a token at [c0] is not well-formed *)
Definition bad (s : str) (k : Z) (c0 : ctx) : Prop := exists r w, head_rune s = Some (r, w) /\ forall scan,
  exists c', yields (fun rec => lex_token rec scan (c_pos c0) r) (fwd w c0) (Err (Issue code a (c_pos c0 + k)) c').
Definition fails (c : ctx) (p : Z) : Prop := exists c', yields (fun r => r unit FNextToken) c (Err (Issue code a p) c').
Lemma next_bad brk g c s r w k : gap brk g -> at_ c (g ++ s) -> c_nls c = -1 -> head_rune s = Some (r, w) -> visible s r w ->
  (forall c0, at_ c0 s -> c_opts c0 = c_opts c -> bad s k c0) -> fails c (c_pos c + zlen g + k).
Proof.
  intros HG H Hn Hh HV HB. destruct (gap_skip HG H Hn HV) as (b & Hb & Es).
  set (c0 := with_tsp (c_pos c + zlen g) (with_bol b (fwd (zlen g) c))).
  assert (H0 : at_ c0 s) by (eapply at_state; [exact (at_fwd H)|reflexivity|reflexivity]).
  destruct (HB c0 H0 eq_refl) as (r' & w' & Hh' & HL). rewrite Hh in Hh'. inversion Hh'; subst r' w'. destruct (HL (c_pos c)) as (c' & HY).
  exists c'. apply y_rec. cbn [body]. unfold nextToken_body. eapply y_step; [reflexivity|]. eapply y_step; [exact Es|]. cbv beta iota. eapply y_step; [reflexivity|].
  eapply y_from; [|exact HY]. intros rec. unfold c0. rewrite <- fwd_fwd. reflexivity.
Qed.
End Fails.

(** ** Comments *)
Lemma star_loop_end csp rs : forall n c s, at_ c (encode rs ++ s) -> Forall rune_ok rs -> ~ has_close rs -> ends s ->
  loop (List.length rs + n) (skipWhite_step false) ("*"%ch, csp) c = loop n (skipWhite_step false) ("*"%ch, csp) (fwd (zlen (encode rs)) c).
Proof.
  induction rs as [|r rs IH]; intros n c s H HF HN HE; [cbn; now rewrite fwd_0|].
  inversion HF; subst. rewrite encode_cons, <- app_assoc in H.
  assert (~ has_close rs) as HN'. { intros (a & b & E). apply HN. exists (r :: a), b. cbn. now rewrite E. }
  cbn [plus List.length]. erewrite loop_inl.
  2:{ eapply star_step; eauto. intros ->. destruct rs as [|x rs].
      - destruct (ends_head HE) as (w & E). exists 0, w. split; [exact E|discriminate].
      - inversion H3 as [|? ? Hx]; subst. destruct Hx as (X1 & X2 & X3). exists x, (zlen (encode_rune x)). split; [rewrite encode_cons, <- app_assoc; now apply head_encode|].
        intros ->. apply HN. exists [], rs. reflexivity. }
  rewrite (IH n _ s (at_fwd H) ltac:(assumption) HN' HE), fwd_fwd, encode_cons, zlen_app. reflexivity.
Qed.
Lemma comment_bad brk g c rs s : gap brk g -> at_ c (g ++ "/"%ch :: "*"%ch :: encode rs ++ s) -> c_nls c = -1 -> Forall rune_ok rs -> ~ has_close rs -> ends s ->
  fails LEX_UNTERMINATED_COMMENT [] c (c_pos c + zlen g + 0).
Proof.
  intros HG H Hn HF HN HE. rewrite Z.add_0_r. destruct (gap_loop HG 0 H Hn) as (k & csp' & b & Hk & _ & E). pose proof (at_fwd H) as H1. apply (at_with_bol b) in H1.
  pose proof (at_fwd1 (at_fwd1 H1)) as H2. rewrite fwd_fwd in H2. pose proof (encode_length rs) as HL.
  destruct (ends_head HE) as (w & Hh).
  assert (HF' : (k + S (List.length rs + 1) < loop_fuel c)%nat).
  { pose proof (loop_fuel_enough H). unfold loop_fuel in *.
    destruct H as (pre & HT & _). rewrite HT in *. rewrite !app_length in *. cbn [List.length] in *. rewrite app_length in *. lia. }
  assert (X : exists c', skipWhite false c = Err (Issue LEX_UNTERMINATED_COMMENT [] (c_pos c + zlen g)) c').
  { eexists. unfold skipWhite, while. remember (loop_fuel c) as f. replace f with (k + S (List.length rs + S (f - k - 2 - List.length rs)))%nat by lia. rewrite E.
    erewrite loop_inl by (eapply slash_step; exact H1). erewrite star_loop_end by (first [exact H2 | eassumption]). cbn [loop]. unfold bind, skipWhite_step.
    pose proof (at_fwd H2) as H3. rewrite (bind_ok _ (at_next H3 Hh)). cbv beta iota zeta. change (0 =? 0) with true. change ("*"%ch =? "*"%ch) with true. cbv iota. reflexivity. }
  destruct X as (c' & X). exists c'. apply y_rec. cbn [body]. unfold nextToken_body. eapply y_step; [reflexivity|].
  apply y_all. intros r. unfold bind. rewrite X. reflexivity.
Qed.

(** ** Reading on in a delimited string, whatever comes of it *)
Section Scan.
Variables (delim dstart : Z) (h : handler) (start : Z) (segs : option (list expr)).
Hypothesis Hdelim : 0 < delim < 128 /\ delim <> "\"%ch /\ delim <> "$"%ch.
Lemma y_scan_next buf c ec p c1 o : next c = Ok (ec, p) c1 ->
  yields (fun r => delim_body r delim dstart h buf ec start segs) c1 o -> yields (scanning delim dstart h buf start segs) c o.
Proof. intros E H. unfold scanning. eapply y_step; [exact E|]. cbn [fst]. apply y_rec. exact H. Qed.
Lemma y_scan_plain buf c e s o : at_ c (encode_rune e ++ s) -> rune_ok e -> e <> delim -> e <> "\"%ch -> (e = "$"%ch -> segs = None) ->
  yields (scanning delim dstart h (buf ++ encode_rune e) start segs) (fwd (zlen (encode_rune e)) c) o ->
  yields (scanning delim dstart h buf start segs) c o.
Proof.
  intros H He H1 H2 H3 Hc. eapply y_scan_next; [exact (at_next_rune H He)|]. destruct He as (_ & _ & He).
  eapply y_from; [|exact Hc]. intros r. unfold delim_body.
  replace (e =? 0) with false by lia. replace (e =? delim) with false by lia. replace (e =? "\"%ch) with false by lia.
  destruct (Z.eqb_spec e "$"%ch) as [->|_].
  - rewrite H3 by reflexivity. rewrite <- H3 by reflexivity. apply scanning_alt.
  - apply scanning_alt.
Qed.
Lemma y_scan_esc_delim buf c s o : at_ c ("\"%ch :: delim :: s) ->
  yields (scanning delim dstart h (buf ++ [delim]) start segs) (fwd 2 c) o ->
  yields (scanning delim dstart h buf start segs) c o.
Proof.
  intros H Hc. eapply y_scan_next; [exact (at_next H (@head_ascii "\"%ch _ ltac:(lia)))|].
  eapply y_from; [|exact Hc]. intros r. unfold delim_body. change ("\"%ch =? 0) with false. replace ("\"%ch =? delim) with false by lia. change ("\"%ch =? "\"%ch) with true. cbv iota.
  rewrite (bind_ok _ (at_next (at_fwd1 H) (@head_ascii delim s ltac:(lia)))). cbv beta iota. replace (delim =? 0) with false by lia. rewrite Z.eqb_refl.
  rewrite (encode_ascii (b := delim)) by lia. rewrite fwd_fwd. apply scanning_alt.
Qed.
Lemma y_scan_esc buf buf' c c2 e s o : at_ c ("\"%ch :: encode_rune e ++ s) -> rune_ok e -> e <> delim ->
  handle_escape h buf e (fwd (1 + zlen (encode_rune e)) c) = Ok buf' c2 ->
  yields (scanning delim dstart h buf' start segs) c2 o ->
  yields (scanning delim dstart h buf start segs) c o.
Proof.
  intros H He H1 Hh Hc. eapply y_scan_next; [exact (at_next H (@head_ascii "\"%ch _ ltac:(lia)))|].
  eapply y_from; [|exact Hc]. intros r. unfold delim_body. change ("\"%ch =? 0) with false. replace ("\"%ch =? delim) with false by lia. change ("\"%ch =? "\"%ch) with true. cbv iota.
  rewrite (bind_ok _ (at_next_rune (at_fwd1 H) He)). cbv beta iota. destruct He as (_ & _ & He). replace (e =? 0) with false by lia. replace (e =? delim) with false by lia.
  rewrite fwd_fwd. rewrite (bind_ok _ Hh). apply scanning_alt.
Qed.
End Scan.
Lemma y_scan_at delim dstart h start segs buf buf' c c0 o : yields (scanning delim dstart h buf' start segs) c0 o -> buf = buf' -> c = c0 ->
  yields (scanning delim dstart h buf start segs) c o.
Proof. now intros H -> ->. Qed.
Lemma y_dq_run hex dstart start segs src rs o : dq hex src rs -> forall buf c s, at_ c (encode src ++ s) -> o_factory (c_opts c) = true -> o_hex (c_opts c) = hex ->
  yields (scanning """"%ch dstart HDouble (buf ++ encode rs) start segs) (fwd (zlen (encode src)) c) o ->
  yields (scanning """"%ch dstart HDouble buf start segs) c o.
Proof.
  induction 1 as [|r src rs Hr H1 H2 H3 Hs IH|r src rs Hr Hs IH|e r src rs Hr Hs IH|cs ds src rs HX HL HV Hs IH|cs ds src rs HX HL HV Hs IH|r src rs Hr H1 H2 Hs IH];
    intros buf c s H Hf Hh HK.
  - change (encode []) with (@nil Z) in HK. change (zlen (@nil Z)) with 0 in HK. rewrite app_nil_r, fwd_0 in HK. exact HK.
  - apply at_encode_cons in H. eapply y_scan_plain; [delims|exact H|exact Hr|exact H1|exact H2|congruence|]. apply (IH _ _ s (at_fwd H) Hf Hh).
    eapply y_scan_at; [exact HK|now rewrite <- app_assoc, encode_cons|rewrite encode_cons, fwd_fwd, zlen_app; f_equal; lia].
  - assert (Ha : 0 < r < 128) by (cbn in Hr; lia). rewrite encode_cons_ascii, encode_cons_ascii in H by lia. cbn [app] in H.
    pose proof (at_fwd1 (at_fwd1 H)) as H'. rewrite fwd_fwd in H'.
    assert (K : yields (scanning """"%ch dstart HDouble (buf ++ [r]) start segs) (fwd 2 c) o).
    { apply (IH _ _ s H' Hf Hh). eapply y_scan_at; [exact HK|rewrite encode_cons_ascii by lia; now rewrite <- app_assoc|rewrite !encode_cons_ascii by lia; rewrite fwd_fwd, !zlen_cons; f_equal; lia]. }
    destruct (Z.eq_dec r """"%ch) as [->|Hd]; [eapply y_scan_esc_delim; [delims|exact H|exact K]|].
    eapply (@y_scan_esc """"%ch dstart HDouble start segs ltac:(delims) buf _ c _ r); [rewrite (encode_ascii (b := r)) by lia; exact H|now apply rune_ok_ascii|exact Hd| |exact K].
    rewrite (encode_ascii (b := r)) by lia. unfold handle_escape. cbn in Hr. destruct Hr as [<-|[<-|[<-|[<-|[]]]]]; try reflexivity; [congruence|].
    cbn. unfold bind, option_on, ask. cbn [fwd with_pos c_opts]. rewrite Hf. reflexivity.
  - assert (Ha : 0 < e < 128 /\ 0 < r < 128) by (cbn in Hr; destruct Hr as [X|[X|[X|[X|[]]]]]; inversion X; lia). rewrite encode_cons_ascii, encode_cons_ascii in H by lia. cbn [app] in H.
    pose proof (at_fwd1 (at_fwd1 H)) as H'. rewrite fwd_fwd in H'.
    eapply (@y_scan_esc """"%ch dstart HDouble start segs ltac:(delims) buf _ c _ e); [rewrite (encode_ascii (b := e)) by lia; exact H|now apply rune_ok_ascii|cbn in Hr; destruct Hr as [X|[X|[X|[X|[]]]]]; inversion X; discriminate| |].
    { instantiate (1 := fwd 2 c). instantiate (1 := buf ++ [r]). rewrite (encode_ascii (b := e)) by lia. unfold handle_escape. cbn in Hr. destruct Hr as [X|[X|[X|[X|[]]]]]; inversion X; subst; reflexivity. }
    apply (IH _ _ s H' Hf Hh). eapply y_scan_at; [exact HK|rewrite encode_cons_ascii by lia; now rewrite <- app_assoc|rewrite !encode_cons_ascii by lia; rewrite fwd_fwd, !zlen_cons; f_equal; lia].
  - assert (HA : Forall (fun x => 0 <= x < 128) cs) by (apply hex_list in HX; revert HX; apply Forall_impl; tauto).
    assert (HL' : zlen cs = 4) by (unfold zlen; rewrite <- (Forall2_length HX), HL; reflexivity).
    rewrite !encode_cons_ascii, encode_app, (encode_asciis HA) in H by lia. cbn [app] in H. rewrite <- app_assoc in H.
    pose proof (at_fwd1 (at_fwd1 H)) as H'. rewrite fwd_fwd in H'.
    eapply (@y_scan_esc """"%ch dstart HDouble start segs ltac:(delims) buf _ c _ "u"%ch); [exact H|apply rune_ok_ascii; lia|discriminate|exact (appendUnicode_4 buf H' HX HL)|].
    pose proof (at_fwd H') as H2. rewrite HL' in H2. apply (IH _ _ s H2 Hf Hh). eapply y_scan_at; [exact HK|now rewrite encode_cons, <- app_assoc|].
    rewrite (encode_cons_ascii (b := "\"%ch)), (encode_cons_ascii (b := "u"%ch)) by lia. rewrite encode_app, (encode_asciis HA), !fwd_fwd, !zlen_cons, zlen_app.
    f_equal. lia.
  - assert (HA : Forall (fun x => 0 <= x < 128) cs) by (apply hex_list in HX; revert HX; apply Forall_impl; tauto).
    rewrite !encode_cons_ascii, encode_app, (encode_asciis HA), encode_cons_ascii in H by lia. cbn [app] in H. rewrite <- app_assoc in H. cbn [app] in H.
    pose proof (at_fwd1 (at_fwd1 H)) as H'. rewrite fwd_fwd in H'.
    eapply (@y_scan_esc """"%ch dstart HDouble start segs ltac:(delims) buf _ c _ "u"%ch); [exact H|apply rune_ok_ascii; lia|discriminate|exact (appendUnicode_braces buf H' HX HL)|].
    pose proof (at_fwd1 (at_fwd (at_fwd1 H'))) as H2. rewrite !(fwd_fwd _ _ (fwd (1 + 1) c)) in H2.
    replace (1 + zlen cs + 1) with (zlen cs + 2) in H2 by lia.
    apply (IH _ _ s H2 Hf Hh). eapply y_scan_at; [exact HK|now rewrite encode_cons, <- app_assoc|].
    rewrite (encode_cons_ascii (b := "\"%ch)), (encode_cons_ascii (b := "u"%ch)), (encode_cons_ascii (b := "{"%ch)) by lia. rewrite encode_app, (encode_asciis HA), !fwd_fwd, !zlen_cons, zlen_app.
    rewrite (encode_cons_ascii (b := "}"%ch)), zlen_cons by lia.
    f_equal. lia.
  - rewrite encode_cons_ascii in H by lia. rewrite <- app_comm_cons in H.
    rewrite encode_cons, <- app_assoc in H. cbn [In] in H1.
    eapply (@y_scan_esc """"%ch dstart HDouble start segs ltac:(delims) buf _ c _ r); [exact H|exact Hr|lia| |].
    { unfold handle_escape. replace ((r =? "\"%ch) || (r =? "'"%ch)) with false by lia. replace (r =? "$"%ch) with false by lia.
      replace (r =? "n"%ch) with false by lia. replace (r =? "r"%ch) with false by lia. replace (r =? "t"%ch) with false by lia. replace (r =? "s"%ch) with false by lia.
      replace (r =? "u"%ch) with false by lia. unfold bind, option_on, ask. cbn [fwd with_pos c_opts]. rewrite Hh.
      replace ((r =? "x"%ch) && hex) with false; [reflexivity|]. destruct (Z.eqb_spec r "x"%ch); [rewrite H2 by assumption|]; reflexivity. }
    pose proof (at_fwd (at_fwd1 H)) as H'. rewrite fwd_fwd in H'. apply (IH _ _ s H' Hf Hh). eapply y_scan_at; [exact HK| |].
    + rewrite (encode_cons_ascii (b := "\"%ch)) by (split; reflexivity || discriminate). rewrite encode_cons, <- app_assoc. reflexivity.
    + rewrite (encode_cons_ascii (b := "\"%ch)) by (split; reflexivity || discriminate). rewrite fwd_fwd, !zlen_cons, !encode_cons, zlen_app. f_equal. lia.
Qed.
Lemma sq_run dstart start src rs o : sq src rs -> forall buf c s, at_ c (encode src ++ s) ->
  yields (scanning "'"%ch dstart HSingle (buf ++ encode rs) start None) (fwd (zlen (encode src)) c) o ->
  yields (scanning "'"%ch dstart HSingle buf start None) c o.
Proof.
  induction 1 as [|r src rs Hr H1 H2 Hs IH|src rs Hs IH|src rs Hs IH|r src rs Hr H1 H2 Hs IH]; intros buf c s H HK.
  - change (encode []) with (@nil Z) in HK. change (zlen (@nil Z)) with 0 in HK. rewrite app_nil_r, fwd_0 in HK. exact HK.
  - apply at_encode_cons in H. eapply y_scan_plain; [delims|exact H|exact Hr|exact H1|exact H2|reflexivity|]. apply (IH _ _ s (at_fwd H)).
    eapply y_scan_at; [exact HK|now rewrite <- app_assoc, encode_cons|rewrite encode_cons, fwd_fwd, zlen_app; f_equal; lia].
  - rewrite !encode_cons_ascii in H by (split; reflexivity || discriminate). cbn [app] in H. eapply y_scan_esc_delim; [delims|exact H|].
    pose proof (at_fwd1 (at_fwd1 H)) as H'. rewrite fwd_fwd in H'. apply (IH _ _ s H').
    eapply y_scan_at; [exact HK|rewrite encode_cons_ascii by lia; now rewrite <- app_assoc|rewrite !encode_cons_ascii by lia; rewrite fwd_fwd, !zlen_cons; f_equal; lia].
  - rewrite !encode_cons_ascii in H by (split; reflexivity || discriminate). cbn [app] in H.
    eapply (@y_scan_esc "'"%ch dstart HSingle start None ltac:(delims) buf _ c _ "\"%ch); [rewrite (encode_ascii (b := "\"%ch)) by lia; exact H|apply rune_ok_ascii; lia|discriminate|reflexivity|].
    pose proof (at_fwd1 (at_fwd1 H)) as H'. rewrite fwd_fwd in H'. rewrite (encode_ascii (b := "\"%ch)) by lia. apply (IH _ _ s H').
    eapply y_scan_at; [exact HK|rewrite encode_cons_ascii by lia; now rewrite <- app_assoc|rewrite !encode_cons_ascii by lia; rewrite fwd_fwd, !zlen_cons; f_equal; lia].
  - rewrite encode_cons_ascii in H by (split; reflexivity || discriminate). rewrite <- app_comm_cons in H. rewrite encode_cons, <- app_assoc in H.
    eapply (@y_scan_esc "'"%ch dstart HSingle start None ltac:(delims) buf _ c _ r); [exact H|exact Hr|exact H1| |].
    { unfold handle_escape. replace (r =? "\"%ch) with false by lia. reflexivity. }
    pose proof (at_fwd (at_fwd1 H)) as H'. rewrite fwd_fwd in H'. apply (IH _ _ s H').
    eapply y_scan_at; [exact HK|rewrite !encode_cons, <- app_assoc, (encode_ascii (b := "\"%ch)) by lia; reflexivity|].
    rewrite !(encode_cons_ascii (b := "\"%ch)) by lia. rewrite fwd_fwd, !zlen_cons, !encode_cons, zlen_app. f_equal. lia.
Qed.
(** the text ends in the string, possibly after a backslash *)
Lemma scan_unterminated delim dstart h start segs buf cut s c : delim = "'"%ch \/ delim = """"%ch -> cut = [] \/ cut = ["\"%ch] -> ends s -> at_ c (cut ++ s) ->
  exists c', yields (scanning delim dstart h buf start segs) c
    (Err (Issue LEX_UNTERMINATED_STRING [("string_type"%string, lit (if delim =? """"%ch then "double"%string else "single"%string))] dstart) c').
Proof.
  intros Hd Hc He H. destruct (ends_head He) as (w & Hh).
  assert (U : forall c1, exists c', @unterminatedQuote (option (list expr)) dstart delim c1
    = Err (Issue LEX_UNTERMINATED_STRING [("string_type"%string, lit (if delim =? """"%ch then "double"%string else "single"%string))] dstart) c').
  { intros c1. eexists. destruct Hd as [-> | ->]; reflexivity. }
  destruct Hc as [-> | ->].
  - destruct (U (fwd w c)) as (c' & E). exists c'. eapply y_scan_next; [exact (at_next H Hh)|]. apply y_all. intros r. unfold delim_body.
    change (0 =? 0) with true. cbv iota. replace (delim =? "/"%ch) with false by (destruct Hd; subst; reflexivity). exact E.
  - cbn [app] in H. destruct (U (fwd w (fwd 1 c))) as (c' & E). exists c'. eapply y_scan_next; [exact (at_next H (@head_ascii "\"%ch _ ltac:(lia)))|].
    apply y_all. intros r. unfold delim_body. change ("\"%ch =? 0) with false. replace ("\"%ch =? delim) with false by (destruct Hd; subst; reflexivity).
    change ("\"%ch =? "\"%ch) with true. cbv iota. rewrite (bind_ok _ (at_next (at_fwd1 H) Hh)). cbv beta iota. change (0 =? 0) with true. cbv iota. exact E.
Qed.
(** an escape that fails *)
Lemma scan_esc_fails dstart start segs buf c e s code a p c' : at_ c ("\"%ch :: e :: s) -> 0 < e < 128 -> e <> """"%ch ->
  handle_escape HDouble buf e (fwd 2 c) = Err (Issue code a p) c' ->
  yields (scanning """"%ch dstart HDouble buf start segs) c (Err (Issue code a p) c').
Proof.
  intros H He Hd E. eapply y_scan_next; [exact (at_next H (@head_ascii "\"%ch _ ltac:(lia)))|].
  apply y_all. intros r. unfold delim_body. change ("\"%ch =? 0) with false. change ("\"%ch =? """"%ch) with false. change ("\"%ch =? "\"%ch) with true. cbv iota.
  rewrite (bind_ok _ (at_next (at_fwd1 H) (@head_ascii e s ltac:(lia)))). cbv beta iota. replace (e =? 0) with false by lia. replace (e =? """"%ch) with false by lia.
  rewrite fwd_fwd. change (1 + 1) with 2. unfold bind. rewrite E. reflexivity.
Qed.
Lemma scan_consumed delim dstart segs h c o : yields (scanning delim dstart h [] (c_pos c) segs) c o -> yields (fun r => consumeDelimitedString r delim dstart segs h) c o.
Proof.
  intros H. eapply y_from; [|exact H]. intros r. unfold consumeDelimitedString, scanning, bind. destruct (next c) as [[a b] c1|e c1|] eqn:En; [|reflexivity|reflexivity]. cbn [fst].
  unfold next in En. destruct (rune_at (c_pos c) c) as [[x y]|]; [|discriminate]. inversion En; subst. reflexivity.
Qed.
Lemma single_bad src rs cut s c0 : sq src rs -> cut = [] \/ cut = ["\"%ch] -> ends s -> at_ c0 ("'"%ch :: encode src ++ cut ++ s) ->
  bad LEX_UNTERMINATED_STRING (kind "single") ("'"%ch :: encode src ++ cut ++ s) 0 c0.
Proof.
  intros HS Hc He H. exists "'"%ch, 1. split; [reflexivity|]. intros scan. pose proof (at_fwd1 H) as H1.
  destruct (@scan_unterminated "'"%ch (c_pos c0) HSingle (c_pos c0 + 1) None (encode rs) cut s (fwd (zlen (encode src)) (fwd 1 c0)) (or_introl eq_refl) Hc He (at_fwd H1)) as (c' & E).
  exists c'. change (yields (fun r => consumeSingleQuotedString r) (fwd 1 c0) (Err (Issue LEX_UNTERMINATED_STRING (kind "single") (c_pos c0 + 0)) c')).
  unfold consumeSingleQuotedString. eapply y_step; [reflexivity|]. apply y_fails. apply scan_consumed.
  change (c_pos (fwd 1 c0)) with (c_pos c0 + 1). replace (c_pos c0 + 1 - 1) with (c_pos c0) by lia. eapply sq_run; [exact HS|exact H1|]. rewrite Z.add_0_r. exact E.
Qed.
Lemma double_runs src rs s c0 scan code a p : dq (o_hex (c_opts c0)) src rs -> o_factory (c_opts c0) = true -> at_ c0 (""""%ch :: encode src ++ s) ->
  (exists c', yields (scanning """"%ch (c_pos c0) HDouble (encode rs) (c_pos c0 + 1) (Some [])) (fwd (zlen (encode src)) (fwd 1 c0)) (Err (Issue code a p) c')) ->
  exists c', yields (fun rec => lex_token rec scan (c_pos c0) """"%ch) (fwd 1 c0) (Err (Issue code a p) c').
Proof.
  intros HS Hf H (c' & E). pose proof (at_fwd1 H) as H1.
  exists c'. change (yields (fun r => consumeDoubleQuotedString r) (fwd 1 c0) (Err (Issue code a p) c')).
  unfold consumeDoubleQuotedString. eapply y_step; [reflexivity|]. eapply y_step; [reflexivity|]. change (o_factory (c_opts (fwd 1 c0))) with (o_factory (c_opts c0)). rewrite Hf. apply y_fails. apply scan_consumed.
  change (c_pos (fwd 1 c0)) with (c_pos c0 + 1). replace (c_pos c0 + 1 - 1) with (c_pos c0) by lia. eapply y_dq_run; [exact HS|exact H1|exact Hf|reflexivity|]. exact E.
Qed.
Lemma double_bad src rs cut s c0 : dq (o_hex (c_opts c0)) src rs -> o_factory (c_opts c0) = true -> cut = [] \/ cut = ["\"%ch] -> ends s -> at_ c0 (""""%ch :: encode src ++ cut ++ s) ->
  bad LEX_UNTERMINATED_STRING (kind "double") (""""%ch :: encode src ++ cut ++ s) 0 c0.
Proof.
  intros HS Hf Hc He H. exists """"%ch, 1. split; [reflexivity|]. intros scan. rewrite Z.add_0_r. eapply double_runs; eauto.
  eapply (@scan_unterminated """"%ch); [now right|exact Hc|exact He|]. exact (at_fwd (at_fwd1 H)).
Qed.

(** ** Characters that begin no token *)
Lemma backtick_bad rs s c0 : o_backtick (c_opts c0) = true -> Forall rune_ok rs -> ~ In "`"%ch rs -> ends s -> at_ c0 ("`"%ch :: encode rs ++ s) ->
  bad LEX_UNTERMINATED_STRING (kind "backtick") ("`"%ch :: encode rs ++ s) 0 c0.
Proof.
  intros Ho HR HN He H. exists "`"%ch, 1. split; [reflexivity|]. intros scan. pose proof (at_fwd1 H) as H1. destruct (ends_head He) as (w & Hh).
  assert (K : forall rs c n k, at_ c (encode rs ++ s) -> Forall rune_ok rs -> ~ In "`"%ch rs -> (List.length rs < n)%nat ->
    loop n (fun count => '(c, n) <- peek ;; if negb (c =? 0) && negb (c =? "`"%ch) then advance n ;; ret (inl (count + 1)) else ret (inr (count, (c, n)))) k c
    = Ok (k + zlen rs, (0, w)) (fwd (zlen (encode rs)) c)).
  { clear - Hh. intros rs. induction rs as [|r rs IH]; intros c n k H HR HN Hn; (destruct n as [|n]; [cbn in *; lia|]); cbn [loop].
    - change (encode [] ++ s) with s in H. unfold bind at 1. rewrite (bind_ok _ (at_peek H Hh)). cbn. rewrite fwd_0. unfold ret, zlen. cbn. do 3 f_equal. lia.
    - inversion HR as [|? ? Hr HR']; subst. cbn [In] in HN. apply at_encode_cons in H. unfold bind at 1. destruct Hr as (X1 & X2 & X3).
      rewrite (bind_ok _ (at_peek H (head_encode _ X1 X2))). replace (negb (r =? 0) && negb (r =? "`"%ch)) with true by (rewrite andb_comm; lia). unfold bind at 1, advance, modify, ret.
      fold (fwd (zlen (encode_rune r)) c). erewrite IH; [|exact (at_fwd H)|assumption|tauto|cbn in Hn; lia].
      rewrite fwd_fwd, encode_cons, zlen_app, zlen_cons. replace (k + 1 + zlen rs) with (k + (1 + zlen rs)) by lia. reflexivity. }
  eexists. apply y_all. intros r.
  match goal with |- ?x = _ => change x with ((bt <- option_on o_backtick ;; if bt : bool then consumeBacktickedString else unexpected_char (c_pos c0) "`"%ch) (fwd 1 c0)) end.
  unfold bind at 1, option_on, ask. change (c_opts (fwd 1 c0)) with (c_opts c0). rewrite Ho. unfold consumeBacktickedString.
  unfold bind at 1, getPos, ask. erewrite bind_ok; [|unfold skip_while, while; apply K; [exact H1|exact HR|exact HN|]].
  - cbv beta iota. change (0 =? 0) with true. cbv iota. unfold unterminatedQuote, bind, setPos, modify, issue2. cbn [fwd with_pos c_pos].
    replace (c_pos c0 + 1 - 1) with (c_pos c0 + 0) by lia. reflexivity.
  - pose proof (encode_length rs). pose proof (loop_fuel_enough H1). lia.
Qed.
Lemma no_backticks_bad s c0 : o_backtick (c_opts c0) = false -> at_ c0 ("`"%ch :: s) -> bad LEX_UNEXPECTED_TOKEN (token (lit "`")) ("`"%ch :: s) 0 c0.
Proof.
  intros Ho H. exists "`"%ch, 1. split; [reflexivity|]. intros scan. eexists. apply y_all. intros r.
  match goal with |- ?x = _ => change x with ((bt <- option_on o_backtick ;; if bt : bool then consumeBacktickedString else unexpected_char (c_pos c0) "`"%ch) (fwd 1 c0)) end.
  unfold bind at 1, option_on, ask. change (c_opts (fwd 1 c0)) with (c_opts c0). rewrite Ho. unfold unexpected_char, bind, setPos, modify, issue2. cbn [fwd with_pos c_pos]. rewrite Z.add_0_r. reflexivity.
Qed.
Lemma character_bad r s c0 : rune_ok r -> ~ beginner r -> bad LEX_UNEXPECTED_TOKEN (token (encode_rune r)) (encode_rune r ++ s) 0 c0.
Proof.
  intros (H1 & H2 & H3) HN. exists r, (zlen (encode_rune r)). split; [now apply head_encode|]. intros scan. eexists. apply y_all. intros rec. rewrite Z.add_0_r.
  unfold beginner, lower, upper, digit in HN. cbn [In lit map list_ascii_of_string] in HN.
  unfold lex_token, in_range, isUppercaseLetter, isLowercaseLetter, in_range.
  repeat match goal with |- (if ?b then _ else _) _ = _ => replace b with false by (clear rec; destruct b eqn:E; [exfalso; apply HN; clear HN; vm_compute (N_of_ascii _) in *; lia|reflexivity]) end.
  reflexivity.
Qed.
Lemma tilde_bad s r c0 : begins s r -> r <> ">"%ch -> at_ c0 ("~"%ch :: s) -> bad LEX_UNEXPECTED_TOKEN (token (lit "~")) ("~"%ch :: s) 0 c0.
Proof.
  intros Hb Hr H. destruct (begins_head Hb) as (w & Hh). exists "~"%ch, 1. split; [reflexivity|]. intros scan. eexists. apply y_all. intros rec.
  match goal with |- ?x = _ => change x with (op_token [(">"%ch, TInEdgeSub)] (setPos (c_pos c0) ;; issue2 LEX_UNEXPECTED_TOKEN [("token"%string, lit "~")]) (fwd 1 c0)) end.
  unfold op_token. rewrite (bind_ok _ (at_peek (at_fwd1 H) Hh)). cbv beta iota. cbn [op_choice]. replace (r =? ">"%ch) with false by lia.
  unfold bind, setPos, modify, issue2. cbn [fwd with_pos c_pos]. rewrite Z.add_0_r. reflexivity.
Qed.
Lemma colons_bad s r c0 : begins s r -> ~ lower r -> ~ upper r -> at_ c0 (":"%ch :: ":"%ch :: s) ->
  bad LEX_DOUBLE_COLON_NOT_FOLLOWED_BY_NAME [] (":"%ch :: ":"%ch :: s) 0 c0.
Proof.
  intros Hb Hl Hu H. destruct (begins_head Hb) as (w & Hh). exists ":"%ch, 1. split; [reflexivity|]. intros scan. eexists. apply y_all. intros rec.
  match goal with |- ?x = _ => change x with (lex_colon (c_pos c0) (fwd 1 c0)) end. unfold lex_colon.
  set (c1 := with_tok TColon VNil (fwd 1 c0)). assert (H1 : at_ c1 (":"%ch :: s)) by (eapply at_state; [exact (at_fwd1 H)|reflexivity|reflexivity]).
  erewrite bind_ok; [|reflexivity]. fold c1. rewrite (bind_ok _ (at_peek H1 (@head_ascii ":"%ch s ltac:(lia)))). cbv beta iota. change (":"%ch =? ":"%ch) with true. cbv iota.
  unfold bind at 1, advance, modify. fold (fwd 1 c1). rewrite (bind_ok _ (at_next (at_fwd1 H1) Hh)). cbv beta iota.
  rewrite <- lower_b in Hl. rewrite <- upper_b in Hu. destruct (isUppercaseLetter r); [congruence|]. destruct (isLowercaseLetter r); [congruence|].
  unfold bind, setPos, modify, issue2. cbn [fwd with_pos c_pos]. rewrite Z.add_0_r. reflexivity.
Qed.

(** ** Names *)
Definition name_code (token : tok) : icode := match token with TTypeName => LEX_INVALID_TYPE_NAME | TVariable => LEX_INVALID_VARIABLE_NAME | _ => LEX_INVALID_NAME end.
Lemma qname_fails start token w : In token [TIdentifier; TTypeName; TVariable] -> qualified (first_of token) w -> exists h t, w = h :: t /\ first_of token h /\
  forall n c s r, at_ c (t ++ ":"%ch :: ":"%ch :: s) -> begins s r -> ~ first_of token r -> (token = TVariable -> r <> "_"%ch) -> (List.length t < n)%nat ->
  exists c', loop n (qualifiedName_step start token) (false, false) c = Err (Issue (name_code token) [] start) c'.
Proof.
  intros HT H. induction H as [h t Hf Ht|h t rest Hf Ht Hr (h' & t' & -> & Hf' & IH)].
  - exists h, t. split; [reflexivity|]. split; [exact Hf|]. intros n c s r H HE Hr Hu Hn. destruct n as [|n]; [lia|]. cbn [loop]. unfold qualifiedName_step at 1.
    unfold bind at 1. rewrite (bind_ok _ (at_skip_while H (word_ascii Ht) (@head_ascii ":"%ch _ ltac:(lia)) eq_refl)). cbv beta iota zeta.
    change (":"%ch =? "-"%ch) with false. cbn [andb]. change (negb (":"%ch =? ":"%ch)) with false. cbv iota.
    pose proof (at_fwd H) as H2. pose proof (at_fwd1 H2) as H3. pose proof (at_fwd1 H3) as H4. destruct (begins_head HE) as (w & Hh).
    unfold bind at 1, getPos, ask. unfold bind at 1, advance, modify. fold (fwd 1 (fwd (zlen t) c)).
    rewrite (bind_ok _ (at_peek H3 (@head_ascii ":"%ch _ ltac:(lia)))). cbv beta iota. change (negb (":"%ch =? ":"%ch)) with false. cbv iota.
    unfold bind at 1, advance, modify. fold (fwd 1 (fwd 1 (fwd (zlen t) c))).
    rewrite (bind_ok _ (at_peek H4 Hh)). cbv beta iota.
    assert (E : (tok_eqb token TTypeName && isUppercaseLetter r)
          || (negb (tok_eqb token TTypeName) && (isLowercaseLetter r || (tok_eqb token TVariable && (r =? "_"%ch)))) = false).
    { cbn in HT. unfold first_of, upper, lower in Hr. unfold isUppercaseLetter, isLowercaseLetter, in_range. destruct HT as [<-|[<-|[<-|[]]]]; cbn; try specialize (Hu eq_refl); lia. }
    rewrite E. cbn [andb]. eexists. unfold bind, setPos, modify, issue, issue2. cbn [with_pos c_pos].
    cbn in HT. destruct HT as [<-|[<-|[<-|[]]]]; reflexivity.
  - exists h. eexists. split; [reflexivity|]. split; [exact Hf|]. intros n c s r H HE Hnr Hu Hn. destruct n as [|n]; [lia|]. cbn [loop]. unfold qualifiedName_step at 1.
    destruct (first_facts HT Hf') as (Ha & Hb & Hb' & Hc). rewrite <- app_assoc in H. cbn [app] in H.
    unfold bind at 1. rewrite (bind_ok _ (at_skip_while H (word_ascii Ht) (@head_ascii ":"%ch _ ltac:(lia)) eq_refl)). cbv beta iota zeta.
    change (":"%ch =? "-"%ch) with false. cbn [andb]. change (negb (":"%ch =? ":"%ch)) with false. cbv iota.
    pose proof (at_fwd H) as H2. pose proof (at_fwd1 H2) as H3. pose proof (at_fwd1 H3) as H4.
    unfold bind at 1, getPos, ask. unfold bind at 1, advance, modify. fold (fwd 1 (fwd (zlen t) c)).
    rewrite (bind_ok _ (at_peek H3 (@head_ascii ":"%ch _ ltac:(lia)))). cbv beta iota. change (negb (":"%ch =? ":"%ch)) with false. cbv iota.
    unfold bind at 1, advance, modify. fold (fwd 1 (fwd 1 (fwd (zlen t) c))).
    rewrite (bind_ok _ (at_peek H4 (@head_ascii h' _ Ha))). cbv beta iota. rewrite Hc. cbn [andb negb].
    unfold bind at 1, advance, modify, ret. fold (fwd 1 (fwd 1 (fwd 1 (fwd (zlen t) c)))).
    replace (h' =? "_"%ch) with false by lia.
    eapply IH; [exact (at_fwd1 H4)|exact HE|exact Hnr|exact Hu|rewrite app_length in Hn; cbn in Hn; lia].
Qed.
Lemma consume_fails start token pre w s r c0 : In token [TIdentifier; TTypeName; TVariable] -> qualified (first_of token) w -> at_ c0 (pre ++ w ++ ":"%ch :: ":"%ch :: s) ->
  begins s r -> ~ first_of token r -> (token = TVariable -> r <> "_"%ch) ->
  exists c', consumeQualifiedName start token (fwd (zlen pre + 1) c0) = Err (Issue (name_code token) [] start) c'.
Proof.
  intros HT HQ H HE Hr Hu. destruct (@qname_fails start token w HT HQ) as (h & t & -> & Hf & L).
  pose proof (at_fwd H) as H1. cbn [app] in H1. pose proof (at_fwd1 H1) as H2. rewrite fwd_fwd in H2.
  destruct (L (loop_fuel (fwd (zlen pre + 1) c0)) _ s r H2 HE Hr Hu (loop_fuel_enough H2)) as (c' & E). exists c'.
  unfold consumeQualifiedName, while, bind at 1. rewrite E. reflexivity.
Qed.
Lemma bad_direct code a s k c0 r w (m : M unit) : head_rune s = Some (r, w) -> (forall (rec : recT) scan, lex_token rec scan (c_pos c0) r (fwd w c0) = m (fwd w c0)) ->
  (exists c', m (fwd w c0) = Err (Issue code a (c_pos c0 + k)) c') -> bad code a s k c0.
Proof. intros Hh E (c' & H). exists r, w. split; [exact Hh|]. intros scan. exists c'. apply y_all. intros rec. rewrite E. exact H. Qed.
Lemma lower_lex h start (rec : recT) scan c : lower h -> lex_token rec scan start h c = consumeQualifiedName start TIdentifier c.
Proof.
  unfold lower. intros Hh. unfold lex_token. replace (in_range "1"%ch h "9"%ch) with false by (unfold in_range; lia).
  replace (isUppercaseLetter h) with false by (unfold isUppercaseLetter, in_range; lia). replace (isLowercaseLetter h) with true by (unfold isLowercaseLetter, in_range; lia). reflexivity.
Qed.
Lemma upper_lex h start (rec : recT) scan c : upper h -> lex_token rec scan start h c = consumeQualifiedName start TTypeName c.
Proof.
  unfold upper. intros Hh. unfold lex_token. replace (in_range "1"%ch h "9"%ch) with false by (unfold in_range; lia).
  replace (isUppercaseLetter h) with true by (unfold isUppercaseLetter, in_range; lia). reflexivity.
Qed.
Lemma word_bad token w pre s r c0 : token = TIdentifier \/ token = TTypeName -> qualified (first_of token) w -> pre = [] \/ pre = lit "::" -> begins s r -> ~ first_of token r ->
  at_ c0 (pre ++ w ++ ":"%ch :: ":"%ch :: s) -> bad (name_code token) [] (pre ++ w ++ ":"%ch :: ":"%ch :: s) 0 c0.
Proof.
  intros HT HQ Hp HE Hr H. destruct (qualified_head HQ) as (h & t & Ew & Hh).
  assert (HI : In token [TIdentifier; TTypeName; TVariable]) by (destruct HT; subst; cbn; auto).
  assert (HV : token = TVariable -> r <> "_"%ch) by (destruct HT; subst; discriminate).
  destruct (@consume_fails (c_pos c0) token pre w s r c0 HI HQ H HE Hr HV) as (c' & E). 
  assert (Hr7 : 0 <= h < 128) by (destruct HT; subst; unfold first_of, lower, upper in Hh; lia).
  destruct Hp as [-> | ->].
  - cbn [app] in *. eapply (@bad_direct _ _ _ _ _ h 1); [rewrite Ew; now apply head_ascii| |].
    + intros rec scan. instantiate (1 := consumeQualifiedName (c_pos c0) token). destruct HT; subst token; cbn [first_of] in Hh; [now apply lower_lex|now apply upper_lex].
    + rewrite Z.add_0_r. exists c'. exact E.
  - eapply (@bad_direct _ _ _ _ _ ":"%ch 1); [reflexivity|intros rec scan; instantiate (1 := lex_colon (c_pos c0)); reflexivity|]. rewrite Z.add_0_r.
    change (lit "::" ++ w ++ ":"%ch :: ":"%ch :: s) with (":"%ch :: ":"%ch :: w ++ ":"%ch :: ":"%ch :: s) in H. unfold lex_colon.
    set (c00 := with_tok TColon VNil c0). assert (H0 : at_ c00 (":"%ch :: ":"%ch :: w ++ ":"%ch :: ":"%ch :: s)) by (eapply at_state; [exact H|reflexivity|reflexivity]).
    pose proof (at_fwd1 H0) as H1. pose proof (at_fwd1 H1) as H2.
    destruct (@consume_fails (c_pos c0) token (lit "::") w s r c00 HI HQ H0 HE Hr HV) as (c2 & E2). exists c2.
    erewrite bind_ok; [|reflexivity]. change (with_tok TColon VNil (fwd 1 c0)) with (fwd 1 c00).
    rewrite (bind_ok _ (at_peek H1 (@head_ascii ":"%ch _ ltac:(lia)))). cbv beta iota. change (":"%ch =? ":"%ch) with true. cbv iota.
    unfold bind at 1, advance, modify. fold (fwd 1 (fwd 1 c00)). rewrite Ew in H2. cbn [app] in H2. rewrite (bind_ok _ (at_next H2 (head_ascii _ Hr7))). cbv beta iota.
    rewrite !fwd_fwd. change (1 + 1 + 1) with (zlen (lit "::") + 1). destruct HT; subst token; cbn [first_of] in Hh; [apply lower_b in Hh|apply upper_b in Hh]; rewrite Hh.
    + replace (isUppercaseLetter h) with false by (unfold isUppercaseLetter, isLowercaseLetter, in_range in *; lia). exact E2.
    + exact E2.
Qed.

(** ** Variables *)
Lemma variable_head c0 pre s (m : Z -> Z -> M unit) r w : at_ c0 ("$"%ch :: pre ++ s) -> pre = [] \/ pre = lit "::" -> head_rune s = Some (r, w) -> (pre = [] -> r <> ":"%ch) ->
  ('(c, sz) <- peek ;;
   '(c, sz) <- (if c =? ":"%ch then
                 advance sz ;;
                 '(c, sz) <- peek ;;
                 if negb (c =? ":"%ch) then setPos (c_pos c0) ;; issue LEX_INVALID_VARIABLE_NAME
                 else advance sz ;; peek
               else ret (c, sz)) ;; m c sz) (fwd 1 c0) = m r w (fwd (1 + zlen pre) c0).
Proof.
  intros H [-> | ->] Hh Hr.
  - cbn [app] in H. rewrite (bind_ok _ (at_peek (at_fwd1 H) Hh)). cbv beta iota. replace (r =? ":"%ch) with false by (specialize (Hr eq_refl); lia). reflexivity.
  - change ("$"%ch :: lit "::" ++ s) with ("$"%ch :: ":"%ch :: ":"%ch :: s) in H. pose proof (at_fwd1 H) as H1. pose proof (at_fwd1 H1) as H2. pose proof (at_fwd1 H2) as H3.
    rewrite (bind_ok _ (at_peek H1 (@head_ascii ":"%ch _ ltac:(lia)))). cbv beta iota. change (":"%ch =? ":"%ch) with true. cbv iota.
    unfold bind at 1. unfold bind at 1, advance, modify. fold (fwd 1 (fwd 1 c0)). rewrite (bind_ok _ (at_peek H2 (@head_ascii ":"%ch _ ltac:(lia)))). cbv beta iota.
    change (negb (":"%ch =? ":"%ch)) with false. cbv iota. unfold bind at 1, advance, modify. fold (fwd 1 (fwd 1 (fwd 1 c0))).
    rewrite (at_peek H3 Hh). rewrite !fwd_fwd. reflexivity.
Qed.
Lemma variable_bad w pre s r c0 : qualified lower w -> pre = [] \/ pre = lit "::" -> begins s r -> ~ lower r -> r <> "_"%ch ->
  at_ c0 ("$"%ch :: pre ++ w ++ ":"%ch :: ":"%ch :: s) -> bad LEX_INVALID_VARIABLE_NAME [] ("$"%ch :: pre ++ w ++ ":"%ch :: ":"%ch :: s) 0 c0.
Proof.
  intros HQ Hp HE Hr Hu H. destruct (qualified_head HQ) as (h & t & Ew & Hh).
  eapply (@bad_direct _ _ _ _ _ "$"%ch 1); [reflexivity|intros rec scan; instantiate (1 := lex_variable (c_pos c0)); reflexivity|]. rewrite Z.add_0_r.
  assert (HI : In TVariable [TIdentifier; TTypeName; TVariable]) by (cbn; auto).
  destruct (@consume_fails (c_pos c0) TVariable ("$"%ch :: pre) w s r c0 HI HQ H HE Hr (fun _ => Hu)) as (c' & E). exists c'.
  unfold lex_variable. refine (eq_trans (variable_head _ H Hp (r := h) (w := 1) _ _) _); [rewrite Ew; unfold lower in Hh; apply head_ascii; lia|unfold lower in Hh; intros _; lia|].
  cbv beta iota. apply lower_b in Hh. rewrite Hh. unfold bind at 1, advance, modify. fold (fwd 1 (fwd (1 + zlen pre) c0)). rewrite fwd_fwd. rewrite zlen_cons in E. exact E.
Qed.
Lemma colon_variable_bad s r c0 : begins s r -> r <> ":"%ch -> at_ c0 ("$"%ch :: ":"%ch :: s) -> bad LEX_INVALID_VARIABLE_NAME [] ("$"%ch :: ":"%ch :: s) 0 c0.
Proof.
  intros HE Hr H. destruct (begins_head HE) as (w & Hh). pose proof (at_fwd1 H) as H1.
  eapply (@bad_direct _ _ _ _ _ "$"%ch 1); [reflexivity|intros rec scan; instantiate (1 := lex_variable (c_pos c0)); reflexivity|]. rewrite Z.add_0_r. eexists.
  unfold lex_variable. rewrite (bind_ok _ (at_peek H1 (@head_ascii ":"%ch _ ltac:(lia)))). cbv beta iota. change (":"%ch =? ":"%ch) with true. cbv iota.
  unfold bind at 1. unfold bind at 1, advance, modify. fold (fwd 1 (fwd 1 c0)). rewrite (bind_ok _ (at_peek (at_fwd1 H1) Hh)). cbv beta iota.
  replace (negb (r =? ":"%ch)) with true by lia. cbv iota. reflexivity.
Qed.
Lemma letter_b o r : 0 <= r -> letter o r -> isLetterU o r = true.
Proof.
  unfold letter, lower, upper, isLetterU, isUppercaseLetter, isLowercaseLetter, in_range. intros H0 [H|[H|[H E]]]; destruct (Z.ltb_spec r 128); lia.
Qed.
Lemma letter_variable_bad pre s r c0 : pre = [] \/ pre = lit "::" -> begins s r -> ~ lower r -> letter (c_opts c0) r -> at_ c0 ("$"%ch :: pre ++ s) ->
  bad LEX_INVALID_VARIABLE_NAME [] ("$"%ch :: pre ++ s) (1 + zlen pre) c0.
Proof.
  intros Hp HE Hl HL H. destruct (begins_head HE) as (w & Hh). pose proof (begins_range HE) as Hr.
  assert (HN : r <> ":"%ch /\ ~ digit r) by (unfold letter, lower, upper, digit in *; lia). destruct HN as [N1 N2].
  eapply (@bad_direct _ _ _ _ _ "$"%ch 1); [reflexivity|intros rec scan; instantiate (1 := lex_variable (c_pos c0)); reflexivity|].
  eexists. unfold lex_variable. refine (eq_trans (variable_head _ H Hp (r := r) (w := w) Hh (fun _ => N1)) _).
  cbv beta iota. rewrite <- lower_b in Hl. destruct (isLowercaseLetter r); [congruence|]. rewrite <- digit_b in N2. destruct (isDecimalDigit r); [congruence|].
  unfold isLetterM at 1, bind at 1, ask. cbn [fwd with_pos c_opts]. rewrite (letter_b Hr HL). reflexivity.
Qed.

(** ** Numbers *)
Lemma zlen_decimals ds : zlen (decimals ds) = zlen ds.
Proof. unfold zlen, decimals. now rewrite map_length. Qed.
Lemma digit_f r : ~ digit r -> isDecimalDigit r = false.
Proof. rewrite <- digit_b. destruct (isDecimalDigit r); congruence. Qed.
Lemma decimal_bad ds s r c0 : number ds -> begins s r -> letter (c_opts c0) r -> r <> "e"%ch -> r <> "E"%ch -> at_ c0 (decimals ds ++ s) ->
  bad LEX_DIGIT_EXPECTED [] (decimals ds ++ s) (zlen ds) c0.
Proof.
  intros (HF & H0) HE HL He1 He2 H. destruct (begins_head HE) as (w & Hh). pose proof (begins_range HE) as Hr. destruct ds as [|d ds]; [cbn in H0; lia|].
  cbn [hd] in H0. inversion HF as [|? ? Hd HF']; subst. change (decimals (d :: ds)) with ((48 + d) :: decimals ds) in *. cbn [app] in *.
  assert (HN : isDecimalDigit r = false) by (apply digit_f; unfold letter, lower, upper, digit in *; lia).
  assert (HN2 : r <> "+"%ch /\ r <> "-"%ch /\ r <> "."%ch) by (unfold letter, lower, upper in HL; lia).
  eapply (@bad_direct _ _ _ _ _ (48 + d) 1); [apply head_ascii; lia| |].
  { intros rec scan. instantiate (1 := lex_number (c_pos c0)). unfold lex_token. replace (in_range "1"%ch (48 + d) "9"%ch) with true by (unfold in_range; lia). reflexivity. }
  eexists. unfold lex_number. rewrite (bind_ok _ (at_skipDecimalDigits (at_fwd1 H) (decimals_digits HF') Hh HN ltac:(intros _; lia))).
  rewrite (bind_ok _ (at_peek (at_fwd (at_fwd1 H)) Hh)). cbv beta iota. replace (_ || _ || _) with false by lia.
  unfold isLetterM at 1, bind at 1, ask. cbn [fwd with_pos c_opts]. rewrite (letter_b Hr HL). unfold issue, issue2. cbn [with_pos c_pos].
  rewrite zlen_decimals, zlen_cons. do 2 f_equal. cbn [fwd with_pos c_pos]. lia.
Qed.
Lemma point_bad ds x s r c0 : number ds \/ ds = [0] -> In x ["."%ch; "e"%ch; "E"%ch] -> begins s r -> ~ digit r -> r <> "+"%ch -> r <> "-"%ch -> at_ c0 (decimals ds ++ x :: s) ->
  bad LEX_DIGIT_EXPECTED [] (decimals ds ++ x :: s) (zlen ds + 1) c0.
Proof.
  intros HD Hx HE Hd Hp Hm H. destruct (begins_head HE) as (w & Hh).
  assert (HF : Forall (fun d => 0 <= d <= 9) ds) by (destruct HD as [[HD _]| ->]; [exact HD|repeat constructor; lia]).
  assert (HZ : ds = [0] \/ 0 < hd 0 ds) by (destruct HD as [[_ HD]| ->]; auto).
  assert (Hne : ds <> []) by (intros ->; destruct HZ as [HZ|HZ]; [discriminate|cbn in HZ; lia]).
  destruct ds as [|d ds]; [congruence|]. pose proof HF as HF0. inversion HF as [|? ? Hd0 HF']; subst.
  exists (48 + d), 1. split; [apply head_ascii; lia|]. intros scan. destruct (@lex_leading scan c0 (d :: ds) x s H HF0 HZ Hx) as (rx & E).
  eexists. apply y_all. intros rec. change (48 + d) with (first_byte (decimals (d :: ds))). rewrite E.
  assert (H1 : at_ (with_radix rx (fwd (zlen (decimals (d :: ds) ++ [x])) c0)) s).
  { eapply at_state; [|reflexivity|reflexivity]. apply at_fwd. rewrite <- app_assoc. exact H. }
  unfold consumeFloat, digits_or_fail, skipDecimalDigits. unfold bind at 1. unfold bind at 1. unfold bind at 1. rewrite (at_peek H1 Hh). cbv beta iota.
  replace ((r =? "-"%ch) || (r =? "+"%ch)) with false by lia. unfold bind at 1, ret at 1.
  rewrite (bind_ok _ (@at_skip_while isDecimalDigit _ [] s r w H1 (Forall_nil _) Hh (digit_f Hd))). cbv beta iota. unfold ret at 1. change (zlen (@nil Z)) with 0. change (0 =? 0) with true. cbv iota.
  unfold issue, issue2. cbn [fwd with_pos with_radix c_pos]. rewrite zlen_app, zlen_decimals. change (zlen [x]) with 1. do 2 f_equal. lia.
Qed.
Lemma hex_f r : 0 <= r -> ~ hex_digit r -> isHexDigit r = false.
Proof.
  intros H0 H. destruct (isHexDigit r) eqn:E; [|reflexivity]. exfalso. apply H. unfold isHexDigit, in_range in E. unfold hex_digit, hex_char.
  assert (K : 48 <= r <= 57 \/ 97 <= r <= 102 \/ 65 <= r <= 70) by lia. destruct K as [K|[K|K]]; [exists (r - 48)|exists (r - 87)|exists (r - 55)]; lia.
Qed.
Lemma hex_bad x ds cs s r c0 : x = "x"%ch \/ x = "X"%ch -> Forall2 hex_char ds cs -> begins s r -> ~ hex_digit r -> ds = [] \/ lower r \/ upper r \/ r = "_"%ch ->
  at_ c0 ("0"%ch :: x :: cs ++ s) -> bad LEX_HEXDIGIT_EXPECTED [] ("0"%ch :: x :: cs ++ s) (2 + zlen cs) c0.
Proof.
  intros Hx HX HE Hr Hc H. destruct (begins_head HE) as (w & Hh). pose proof (hex_f (begins_range HE) Hr) as HN.
  eapply (@bad_direct _ _ _ _ _ "0"%ch 1); [reflexivity|intros rec scan; instantiate (1 := lex_zero (c_pos c0)); reflexivity|].
  eexists. unfold lex_zero. unfold bind at 1, modify. pose proof (at_fwd1 H) as H1.
  set (c1 := with_radix 10 (fwd 1 c0)). assert (H2 : at_ c1 (x :: cs ++ s)) by (eapply at_state; [exact H1|reflexivity|reflexivity]).
  rewrite (bind_ok _ (at_peek H2 (@head_ascii x _ ltac:(lia)))). cbv beta iota.
  replace (x =? 0) with false by lia. replace ((x =? "x"%ch) || (x =? "X"%ch)) with true by lia.
  unfold bind at 1, advance, modify. fold (fwd 1 c1). unfold bind at 1, getPos, ask.
  rewrite (bind_ok _ (at_skip_while (at_fwd1 H2) (hex_list HX) Hh HN)). cbv beta iota. unfold bind at 1, getPos, ask.
  assert (B : (c_pos (fwd (zlen cs) (fwd 1 c1)) =? c_pos (fwd 1 c1)) || isLetter r = true).
  { cbn [fwd with_pos c_pos]. destruct Hc as [->|Hc]; [inversion HX; subst; change (zlen (@nil Z)) with 0; lia|].
    unfold isLetter, isUppercaseLetter, isLowercaseLetter, in_range. unfold lower, upper in Hc. lia. }
  rewrite B. unfold issue, issue2. f_equal. f_equal. cbn. lia.
Qed.
Lemma octal_bad ds s r c0 : Forall (fun d => 0 <= d <= 7) ds -> begins s r -> r = "8"%ch \/ r = "9"%ch \/ letter (c_opts c0) r -> (ds = [] -> ~ In r (lit "xXeE")) ->
  at_ c0 ("0"%ch :: decimals ds ++ s) -> bad LEX_OCTALDIGIT_EXPECTED [] ("0"%ch :: decimals ds ++ s) (1 + zlen ds) c0.
Proof.
  intros HF HE Hr Hx H. destruct (begins_head HE) as (w & Hh). pose proof (begins_range HE) as H0.
  assert (HN : isOctalDigit r = false) by (unfold letter, lower, upper, isOctalDigit, in_range in *; lia).
  assert (HB : isDecimalDigit r || isLetterU (c_opts c0) r = true).
  { destruct Hr as [->|[->|Hr]]; [reflexivity|reflexivity|]. rewrite (letter_b H0 Hr). apply orb_true_r. }
  assert (HQ : r <> 0 /\ r <> "."%ch) by (unfold letter, lower, upper in *; lia). cbn [lit map list_ascii_of_string In] in Hx. vm_compute (Z.of_N _) in Hx.
  assert (HA : Forall (fun x => 0 <= x < 128 /\ isOctalDigit x = true) (decimals ds)).
  { unfold decimals. rewrite Forall_map. revert HF. apply Forall_impl. intros a Ha. unfold isOctalDigit, in_range. lia. }
  eapply (@bad_direct _ _ _ _ _ "0"%ch 1); [reflexivity|intros rec scan; instantiate (1 := lex_zero (c_pos c0)); reflexivity|].
  eexists. unfold lex_zero. unfold bind at 1, modify. pose proof (at_fwd1 H) as H1.
  set (c1 := with_radix 10 (fwd 1 c0)). assert (H2 : at_ c1 (decimals ds ++ s)) by (eapply at_state; [exact H1|reflexivity|reflexivity]).
  assert (P : exists p q, head_rune (decimals ds ++ s) = Some (p, q) /\ p <> 0 /\ p <> "x"%ch /\ p <> "X"%ch /\ p <> "."%ch /\ p <> "e"%ch /\ p <> "E"%ch).
  { destruct ds as [|d ds].
    - exists r, w. split; [exact Hh|]. specialize (Hx eq_refl). lia.
    - inversion HF; subst. exists (48 + d), 1. split; [apply head_ascii; lia|]. lia. }
  destruct P as (p & q & P1 & P2). rewrite (bind_ok _ (at_peek H2 P1)). cbv beta iota.
  replace (p =? 0) with false by lia. replace ((p =? "x"%ch) || (p =? "X"%ch)) with false by lia.
  replace ((p =? "."%ch) || (p =? "e"%ch) || (p =? "E"%ch)) with false by lia.
  unfold bind at 1, getPos, ask. rewrite (bind_ok _ (at_skip_while H2 HA Hh HN)). cbv beta iota.
  unfold isLetterM at 1, bind at 1, ask. cbn [fwd with_pos c_opts]. replace (c_opts c1) with (c_opts c0) by reflexivity. rewrite HB.
  unfold issue, issue2. f_equal. f_equal. rewrite zlen_decimals. cbn. lia.
Qed.

(** ** Escapes *)
Lemma escape_bad src rs s c0 e code : dq (o_hex (c_opts c0)) src rs -> o_factory (c_opts c0) = true -> at_ c0 (""""%ch :: encode src ++ "\"%ch :: e :: s) -> 0 < e < 128 -> e <> """"%ch ->
  (forall buf c, at_ c s -> c_opts c = c_opts c0 -> c_pos c = c_pos c0 + 1 + zlen (encode src) + 2 -> exists c', handle_escape HDouble buf e c = Err (Issue code [] (c_pos c0 + (1 + zlen (encode src)))) c') ->
  bad code [] (""""%ch :: encode src ++ "\"%ch :: e :: s) (1 + zlen (encode src)) c0.
Proof.
  intros HS Hf H He Hd K. exists """"%ch, 1. split; [reflexivity|]. intros scan. pose proof (at_fwd (at_fwd1 H)) as H1. pose proof (at_fwd1 (at_fwd1 H1)) as H2. rewrite (fwd_fwd 1 1) in H2.
  destruct (K (encode rs) _ H2 eq_refl ltac:(cbn; lia)) as (c' & E).
  eapply double_runs; eauto. exists c'. eapply scan_esc_fails; [exact H1|exact He|exact Hd|]. exact E.
Qed.
Lemma unicode_digit_fails start c s r : at_ c s -> begins s r -> ~ hex_digit r -> unicode_digit start c = Err (Issue LEX_MALFORMED_UNICODE_ESCAPE [] (start - 2)) (with_pos (start - 2) c).
Proof.
  intros H HE Hr. destruct (begins_head HE) as (w & Hh). unfold unicode_digit. rewrite (bind_ok _ (at_next H Hh)). cbv beta iota. rewrite (hex_f (begins_range HE) Hr). reflexivity.
Qed.
Lemma appendUnicode_fails buf c ds cs s r : at_ c (cs ++ s) -> Forall2 hex_char ds cs -> (List.length ds < 4)%nat -> begins s r -> ~ hex_digit r -> (ds = [] -> r <> "{"%ch) ->
  exists c', appendUnicode buf c = Err (Issue LEX_MALFORMED_UNICODE_ESCAPE [] (c_pos c - 2)) c'.
Proof.
  intros H HX HL HE Hr Hb. pose proof (hex_list HX) as HF. assert (HB : cs = [] -> r <> "{"%ch) by (intros ->; inversion HX; auto). rewrite (Forall2_length HX) in HL. clear HX Hb. unfold appendUnicode.
  destruct cs as [|a cs].
  { destruct (begins_head HE) as (w & Hh). cbn [app] in H. rewrite (bind_ok _ (at_next H Hh)). cbv beta iota. rewrite (hex_f (begins_range HE) Hr).
    specialize (HB eq_refl). replace (negb (r =? "{"%ch)) with true by lia. eexists. reflexivity. }
  inversion HF as [|? ? [A1 A2] HF1]; subst. cbn [app] in H. pose proof (at_fwd1 H) as H1. rewrite (bind_ok _ (at_next H (@head_ascii a _ A1))). cbv beta iota. rewrite A2.
  destruct cs as [|b cs]; [eexists; unfold bind at 1; rewrite (unicode_digit_fails (c_pos c) H1 HE Hr); reflexivity|].
  inversion HF1 as [|? ? [B1 B2] HF2]; subst. cbn [app] in H1. pose proof (at_fwd1 H1) as H2. rewrite (bind_ok _ (unicode_digit_at _ H1 B1 B2)).
  destruct cs as [|d cs]; [eexists; unfold bind at 1; rewrite (unicode_digit_fails (c_pos c) H2 HE Hr); reflexivity|].
  inversion HF2 as [|? ? [D1 D2] HF3]; subst. cbn [app] in H2. pose proof (at_fwd1 H2) as H3. rewrite (bind_ok _ (unicode_digit_at _ H2 D1 D2)).
  destruct cs as [|? ?]; [|cbn in HL; lia]. eexists. unfold bind at 1. rewrite (unicode_digit_fails (c_pos c) H3 HE Hr). reflexivity.
Qed.
Lemma appendUnicode_braces_fails buf c ds cs s r : at_ c ("{"%ch :: cs ++ s) -> Forall2 hex_char ds cs -> begins s r -> ~ hex_digit r -> (r = "}"%ch -> ~ (2 <= List.length ds <= 6)%nat) ->
  exists c', appendUnicode buf c = Err (Issue LEX_MALFORMED_UNICODE_ESCAPE [] (c_pos c - 2)) c'.
Proof.
  intros H HX HE Hr Hb. destruct (begins_head HE) as (w & Hh). rewrite (Forall2_length HX) in Hb. eexists.
  unfold appendUnicode. rewrite (bind_ok _ (at_next H (@head_ascii "{"%ch _ ltac:(lia)))). cbv beta iota. change (isHexDigit "{"%ch) with false. change (negb ("{"%ch =? "{"%ch)) with false. cbv iota.
  unfold bind at 1, getPos, ask. rewrite (bind_ok _ (at_skip_while (at_fwd1 H) (hex_list HX) Hh (hex_f (begins_range HE) Hr))). cbv beta iota.
  unfold bind at 1, getPos, ask. cbv zeta. cbn [fwd with_pos c_pos].
  match goal with |- context [if negb ?b then _ else _] => replace b with false by (unfold zlen; lia) end. reflexivity.
Qed.
Lemma hexadecimal_fails buf c d a s r : at_ c (a :: s) -> hex_char d a -> begins s r -> ~ hex_digit r -> exists c', appendHexadec buf c = Err (Issue LEX_MALFORMED_HEX_ESCAPE [] (c_pos c - 2)) c'.
Proof.
  intros H Ha HE Hr. destruct (begins_head HE) as (w & Hh). destruct (hex_char_ascii Ha) as [A1 A2]. eexists. unfold appendHexadec.
  rewrite (bind_ok _ (at_next H (@head_ascii a _ ltac:(lia)))). cbv beta iota. rewrite A2. unfold bind at 1. rewrite (bind_ok _ (at_next (at_fwd1 H) Hh)). cbv beta iota.
  rewrite (hex_f (begins_range HE) Hr). reflexivity.
Qed.

(** ** All of them *)
Lemma head_solid s r w : head_rune s = Some (r, w) -> solid_b r = true -> visible s r w.
Proof. intros H1 H2. exact (visible_solid H1 (solid_spec H2)). Qed.
Theorem malformed_fails o s code a k brk g c : malformed o s code a k -> gap brk g -> at_ c (g ++ s) -> c_opts c = o -> c_nls c = -1 ->
  fails code a c (c_pos c + zlen g + k).
Proof.
  intros HM HG H Ho Hn. pose proof (at_fwd H) as HF.
  assert (V : forall r w, head_rune s = Some (r, w) -> solid_b r = true -> (forall c0, at_ c0 s -> c_opts c0 = o -> bad code a s k c0) -> fails code a c (c_pos c + zlen g + k)).
  { intros r w Hh Hs HB. eapply next_bad; [exact HG|exact H|exact Hn|exact Hh|exact (head_solid Hh Hs)|]. intros c0 H0 E. apply HB; [exact H0|congruence]. }
  destruct HM as [src rs cut s Hq Hc He|src rs cut s Hf Hq Hc He|rs s Hb Hr HN He|rs s Hr HN He|s Hb|r s Hr HN|s r He Hr|s r He Hl Hu
    |w pre s r HQ Hp He Hr|w pre s r HQ Hp He Hr|w pre s r HQ Hp He Hr Hu|s r He Hr|pre s r Hp He Hl HL
    |ds s r HD He HL H1 H2|ds x s r HD Hx He H1 H2 H3|x ds cs s r Hx HX He Hr Hd|ds s r HD He Hr Hd
    |src rs ds cs s r Hf HQ HX HL He Hr Hb|src rs ds cs s r Hf HQ HX He Hr Hb|src rs d x s r Hf Hh HQ HX He Hr].
  - eapply V; [reflexivity|reflexivity|]. intros c0 H0 E. eapply single_bad; eauto.
  - eapply V; [reflexivity|reflexivity|]. intros c0 H0 E. subst o. rewrite <- E in *. eapply double_bad; eauto.
  - eapply V; [reflexivity|reflexivity|]. intros c0 H0 E. eapply backtick_bad; eauto. congruence.
  - eapply comment_bad; eauto.
  - eapply V; [reflexivity|reflexivity|]. intros c0 H0 E. eapply no_backticks_bad; eauto. congruence.
  - pose proof Hr as (X1 & X2 & X3). eapply V; [now apply head_encode| |intros c0 H0 E; now apply character_bad].
    unfold solid_b. cbn [existsb]. unfold beginner in HN. cbn [In lit map list_ascii_of_string] in HN. vm_compute (Z.of_N _) in HN. lia.
  - eapply V; [reflexivity|reflexivity|]. intros c0 H0 E. eapply tilde_bad; eauto.
  - eapply V; [reflexivity|reflexivity|]. intros c0 H0 E. eapply colons_bad; eauto.
  - destruct (qualified_head HQ) as (h & t & Ew & Hh). destruct Hp as [-> | ->].
    + eapply (V h 1); [cbn [app]; rewrite Ew; apply head_ascii; unfold lower in Hh; lia|unfold solid_b, lower in *; cbn [existsb]; lia|].
      intros c0 H0 E. eapply (@word_bad TIdentifier w []); eauto.
    + eapply V; [reflexivity|reflexivity|]. intros c0 H0 E. eapply (@word_bad TIdentifier w (lit "::")); eauto.
  - destruct (qualified_head HQ) as (h & t & Ew & Hh). destruct Hp as [-> | ->].
    + eapply (V h 1); [cbn [app]; rewrite Ew; apply head_ascii; unfold upper in Hh; lia|unfold solid_b, upper in *; cbn [existsb]; lia|].
      intros c0 H0 E. eapply (@word_bad TTypeName w []); eauto.
    + eapply V; [reflexivity|reflexivity|]. intros c0 H0 E. eapply (@word_bad TTypeName w (lit "::")); eauto.
  - eapply V; [reflexivity|reflexivity|]. intros c0 H0 E. eapply variable_bad; eauto.
  - eapply V; [reflexivity|reflexivity|]. intros c0 H0 E. eapply colon_variable_bad; eauto.
  - eapply V; [reflexivity|reflexivity|]. intros c0 H0 E. eapply letter_variable_bad; eauto. now rewrite E.
  - pose proof HD as (HD1 & HD2). destruct ds as [|d ds]; [cbn in HD2; lia|]. inversion HD1; subst.
    eapply (V (48 + d) 1); [apply head_ascii; lia|unfold solid_b; cbn [existsb]; lia|]. intros c0 H0 E. eapply decimal_bad; eauto. now rewrite E.
  - assert (HD' : exists d t, ds = d :: t /\ 0 <= d <= 9).
    { destruct HD as [(HD1 & HD2)| ->]; [|exists 0, []; split; [reflexivity|lia]]. destruct ds as [|d ds]; [cbn in HD2; lia|]. inversion HD1; subst. exists d, ds. auto. }
    destruct HD' as (d & t & -> & Hd). eapply (V (48 + d) 1); [apply head_ascii; lia|unfold solid_b; cbn [existsb]; lia|]. intros c0 H0 E. eapply point_bad; eauto.
  - eapply V; [reflexivity|reflexivity|]. intros c0 H0 E. eapply hex_bad; eauto.
  - eapply V; [reflexivity|reflexivity|]. intros c0 H0 E. eapply octal_bad; eauto. now rewrite E.
  - eapply V; [reflexivity|reflexivity|]. intros c0 H0 E. subst o. rewrite <- E in *. eapply escape_bad; [exact HQ|exact Hf|exact H0|lia|discriminate|]. intros buf c1 A1 A2 A3.
    change (handle_escape HDouble buf "u"%ch c1) with (appendUnicode buf c1). destruct (@appendUnicode_fails buf c1 ds cs s r A1 HX HL He Hr Hb) as (c' & K). exists c'. rewrite K. do 2 f_equal. lia.
  - eapply V; [reflexivity|reflexivity|]. intros c0 H0 E. subst o. rewrite <- E in *. eapply escape_bad; [exact HQ|exact Hf|exact H0|lia|discriminate|]. intros buf c1 A1 A2 A3.
    change (handle_escape HDouble buf "u"%ch c1) with (appendUnicode buf c1). destruct (@appendUnicode_braces_fails buf c1 ds cs s r A1 HX He Hr Hb) as (c' & K). exists c'. rewrite K. do 2 f_equal. lia.
  - eapply V; [reflexivity|reflexivity|]. intros c0 H0 E. subst o. rewrite <- E in *. rewrite <- Hh in HQ. eapply escape_bad; [exact HQ|exact Hf|exact H0|lia|discriminate|]. intros buf c1 A1 A2 A3.
    assert (Q : handle_escape HDouble buf "x"%ch c1 = appendHexadec buf c1) by (cbn; unfold bind, option_on, ask; rewrite A2, Hh; reflexivity). rewrite Q.
    destruct (@hexadecimal_fails buf c1 d x s r A1 HX He Hr) as (c' & K). exists c'. rewrite K. do 2 f_equal. lia.
Qed.
