(** * CalmLex: the lexer leaves a token and the value that belongs to it *)
From Verif Require Import Base Float Tokens Ast Ctx Locator Lexer Parser Wp CalmFrame CalmBase.

Lemma vt_vg T t v : vt t v = true -> t <> TType -> vg T t v.
Proof. intros H N. split; [exact H|congruence]. Qed.
Lemma tok_eqb_true a b : tok_eqb a b = true -> a = b.
Proof. apply tok_eqb_eq. Qed.

Section Rec.
Variable T : str.
Variable o : opts.
Variable rec : forall A, fn A -> M A.
Hypothesis REC : calms T o rec.
Notation Sc := (Sc T o). Notation Ec := (Ec T o). Notation post := (post T o). Notation vg := (vg T).

Ltac tv := first [assumption | apply vt_vg; [reflexivity|discriminate] | idtac].
Ltac l := c_go; try (c_fin; [tv|try exact I]).

Lemma spine_named_lhs start : forall n e, (height e < n)%nat -> spine e = true ->
  match e with EBin _ KNamedAccess _ _ _ => convertNamedAccessLHS e start <> None | _ => True end.
Proof.
  induction n as [|n IH]; intros e Hn H; [lia|].
  destruct e; try exact I. destruct k; try exact I. cbn [convertNamedAccessLHS]. cbn [spine] in H.
  assert (H1: (height e1 < n)%nat).
  { pose proof (@child_height (EBin p KNamedAccess op e1 e2) e1 (or_introl eq_refl)). lia. }
  pose proof (IH e1 H1 H) as K. destruct e1; try discriminate.
  - destruct k; try discriminate. destruct (convertNamedAccessLHS _ start) as [[]|]; [discriminate|exact K].
  - cbn [spine] in H. destruct e1; try discriminate H. destruct k; try discriminate H.
    match goal with K0 : context [ECallMethod ?q ?r (EBin ?a KNamedAccess ?b ?x ?y) ?g ?la] |- _ =>
      pose proof (@child_height (ECallMethod q r (EBin a KNamedAccess b x y) g la) (EBin a KNamedAccess b x y) (or_introl eq_refl)) as HH;
      pose proof (IH (EBin a KNamedAccess b x y) ltac:(lia) H) as K2 end.
    destruct (convertNamedAccessLHS _ start) as [[]|]; [discriminate|congruence].
Qed.

Lemma c_from ns t v c start (Q : str -> ctx -> Prop) :
  Sc ns t v c -> (forall s c', Sc ns t v c' -> (exists a b, T = a ++ s ++ b) -> Q s c') -> wp Ec (from start) c Q.
Proof.
  intros HS HQ. unfold wp, from. destruct (_ && _) eqn:E; [|exact I]. apply HQ; [exact HS|].
  assert (c_text c = T) as -> by apply HS. unfold slice.
  exists (firstn (Z.to_nat start) T), (skipn (Z.to_nat (c_pos c - start)) (skipn (Z.to_nat start) T)).
  now rewrite !firstn_skipn.
Qed.
Lemma interpolate_ok ns t v c start : Sc ns t v c -> wp Ec (interpolate rec start) c (post true ns (fun _ => True)).
Proof.
  intros HS. unfold interpolate. do 2 c1. destruct a as [ch sz]. c1.
  - do 9 c1.
    eapply wp_weaken with (Q := fun _ c' => Sc ns t1 v1 c').
    + destruct a1; try (apply wp_ret; assumption).
      * destruct a1; apply wp_ret; assumption.
      * destruct a1; try (apply wp_ret; assumption). destruct k; try (apply wp_ret; assumption).
        cbn [spine] in HR0. pose proof (@spine_named_lhs start _ (EBin p0 KNamedAccess op a1_1 a1_2) (Nat.lt_succ_diag_r _) HR0) as K. cbv beta iota in K.
        destruct convertNamedAccessLHS as [[f' []]|]; [apply wp_ret; assumption|apply wp_ret; assumption|congruence].
    + clear HS0. intros e' c' HS. l.
  - do 2 c1. apply wp_bind. 
    eapply wp_weaken with (Q := fun _ c' => exists t' v', Sc ns t' v' c' /\ (t' = TVariable \/ vg t' v')).
    + l; [eauto|eauto].
    + clear H. intros _ c2 (t2 & v2 & HS & HV). c1. c1. c1; [|exact I]. cbn [negb]. apply tok_eqb_true in Heqb0. subst t2. do 4 c1.
      destruct HV as [HV|[HV _]]; [discriminate|]. destruct v2; try discriminate HV. l.
Qed.
Lemma handleInterpolation_ok ns t v c start segs buf : Sc ns t v c ->
  wp Ec (handleInterpolation rec start segs buf) c (post true ns (fun _ => True)).
Proof. intros HS. unfold handleInterpolation. do 4 c1. c1. c_call interpolate_ok. l. Qed.
Lemma delim_body_ok ns t v c delim dstart h buf ec start segs : Sc ns t v c ->
  wp Ec (delim_body rec delim dstart h buf ec start segs) c (fun a c' => exists t' v', Sc ns t' v' c' /\ vg t' v' /\ (delim <> "/"%ch -> t' = TString)).
Proof.
  intros HS. unfold delim_body. cbv zeta. c_go; try (eexists; eexists; split; [eassumption|split; [tv|]]); try assumption; try reflexivity.
  - intros N. apply Z.eqb_neq in N. rewrite N in *. discriminate.
  - c_call handleInterpolation_ok. c_go. eexists; eexists; split; [eassumption|split; [tv|assumption]].
Qed.
Lemma consumeDelimitedString_ok ns t v c delim dstart segs h : Sc ns t v c ->
  wp Ec (consumeDelimitedString rec delim dstart segs h) c (fun a c' => exists t' v', Sc ns t' v' c' /\ vg t' v' /\ (delim <> "/"%ch -> t' = TString)).
Proof. intros HS. unfold consumeDelimitedString. c_go. eexists; eexists; split; [eassumption|split; [tv|assumption]]. Qed.
Lemma consumeSingle_ok ns t v c : Sc ns t v c ->
  wp Ec (consumeSingleQuotedString rec) c (post true ns (fun _ => True)).
Proof.
  intros HS. unfold consumeSingleQuotedString. do 3 c1. eapply wp_weaken; [eapply consumeDelimitedString_ok; eassumption|].
  cbn beta. c_clr. intros a' c' (t' & v' & HS' & HG & _). l.
Qed.
Lemma consumeRegexp_ok ns t v c : Sc ns t v c ->
  wp Ec (consumeRegexp rec) c (post true ns (fun _ => True)).
Proof.
  intros HS. unfold consumeRegexp. do 3 c1. eapply wp_weaken; [eapply consumeDelimitedString_ok; eassumption|].
  cbn beta. c_clr. intros a' c' (t' & v' & HS' & HG & _). do 3 c1; [|l]. apply tok_eqb_true in Heqb. subst t'.
  c1. apply wp_modify. destruct HG as [HG _]. destruct v'; try discriminate HG.
  assert (Sc ns TRegexp (VStr s) (with_tok TRegexp (c_val c') c')).
  { destruct HS' as (S1 & S2 & S3 & S4 & S5). repeat split; try assumption. }
  l.
Qed.
Lemma spine_concat p l : spine (EConcat p l) = true. Proof. reflexivity. Qed.
Lemma consumeDouble_ok ns t v c : Sc ns t v c ->
  wp Ec (consumeDoubleQuotedString rec) c (post true ns (fun _ => True)).
Proof.
  intros HS. unfold consumeDoubleQuotedString. do 5 c1. eapply wp_weaken; [eapply consumeDelimitedString_ok; eassumption|].
  cbn beta. c_clr. intros segs c' (t' & v' & HS' & HG & Ht). rewrite (Ht ltac:(discriminate)) in *. clear Ht t'.
  destruct (o_factory o); cbn [negb]; [|l].
  destruct HG as [HG _]. destruct v'; try discriminate HG. unfold value_string. do 3 c1. cbv iota. do 5 c1. cbv zeta.
  match goal with |- wp _ (match ?x with [] => _ | _ => _ end) _ _ => assert (N : x <> []); [|generalize dependent x; intros ys0 N] end.
  { destruct segs as [[|x xs]|]; try discriminate. destruct s; [discriminate|]. destruct xs; discriminate. }
  destruct ys0 as [|y ys]; [congruence|].
  match goal with |- wp _ _ ?c0 _ => assert (D : forall f l0, wp Ec (settokenValue TConcatenatedString (VExpr (EConcat f l0))) c0 (post true ns (fun _ => True))) by (intros; l) end.
  destruct y; try apply D. destruct ys; [l|apply D].
Qed.
Lemma apply_body_ok ns t v c e i fl bld ch start segs : Sc ns t v c ->
  wp Ec (apply_body rec e i fl bld ch start segs) c (post false ns (fun _ => True)).
Proof.
  intros HS. unfold apply_body. cbv zeta. c_go; try (c_fin; exact I).
  all: try (c_call handleInterpolation_ok; c_go; c_fin; exact I).
Qed.
Lemma applyEscapes_ok ns t v c e i fl segs : Sc ns t v c ->
  wp Ec (applyEscapes rec e i fl segs) c (post false ns (fun _ => True)).
Proof. intros HS. unfold applyEscapes. c_go. c_fin; exact I. Qed.
Lemma heredoc_ok ns t v c : Sc ns t v c -> wp Ec (consumeHeredocString rec) c (post true ns (fun _ => True)).
Proof.
  intros HS. unfold consumeHeredocString. cbv zeta. l.
  c_call applyEscapes_ok. destruct a1 as [hd segs]. destruct segs as [[|x xs]|]; l.
Qed.
Lemma epp_step_ok ns t v st c : Sc ns t v c ->
  wp Ec (epp_step st) c (fun r c' => exists t' v', Sc ns t' v' c' /\ match r with inl _ => True | inr _ => vg t' v' end).
Proof.
  intros HS. unfold epp_step. cbv zeta. c_go; eexists; eexists; (split; [eassumption|]); tv; exact I.
Qed.
Lemma consumeEPP_ok ns t v c : Sc ns t v c -> wp Ec (consumeEPP rec) c (post true ns (fun _ => True)).
Proof.
  intros HS. unfold consumeEPP. apply wp_bind.
  eapply wp_weaken with (Q := fun _ c' => exists t' v', Sc ns t' v' c' /\ vg t' v').
  - eapply wp_while with (I := fun _ c' => exists t' v', Sc ns t' v' c'); [eauto|]. intros st c' (t' & v' & HS').
    eapply wp_weaken; [eapply epp_step_ok; eassumption|]. cbn beta. intros [r|r] c2 (t2 & v2 & H1 & H2); eauto.
  - c_clr. intros b c' (t' & v' & HS & HG). l.
Qed.
Lemma kw_type w : kw_lookup w = Some TType -> w = lit "type".
Proof.
  unfold kw_lookup. assert (H : Forall (fun kt => snd kt = TType -> fst kt = "type"%string) keywords).
  { unfold keywords. repeat constructor; cbn; try discriminate. }
  induction H as [|[k t'] l Hh Hl IH]; cbn [kw_find]; [discriminate|].
  destruct (str_eqb w (lit k)) eqn:E; [|exact IH]. intros [= ->]. apply str_eqb_eq in E. subst w. cbn in Hh. now rewrite Hh.
Qed.
Lemma kw_vt w t : kw_lookup w = Some t -> t <> TBoolean -> t <> TDefault -> vt t (VStr w) = true.
Proof.
  unfold kw_lookup. assert (H : Forall (fun kt => snd kt <> TBoolean -> snd kt <> TDefault -> vt (snd kt) (VStr w) = true) keywords).
  { unfold keywords. repeat constructor; cbn; congruence. }
  induction H as [|[k t'] l Hh Hl IH]; cbn [kw_find]; [discriminate|].
  destruct (str_eqb w (lit k)) eqn:E; [|exact IH]. intros [= ->]. exact Hh.
Qed.
Lemma qname_ok ns t v c start t' : t' = TIdentifier \/ t' = TTypeName \/ t' = TVariable -> Sc ns t v c ->
  wp Ec (consumeQualifiedName start t') c (post true ns (fun _ => True)).
Proof.
  intros Ht HS. unfold consumeQualifiedName. apply wp_bind. c_frame. apply wp_bind. eapply c_from; [eassumption|]. c_clr. intros w c2 HS HT.
  destruct (tok_eqb t' TIdentifier) eqn:Ei.
  - apply tok_eqb_true in Ei. subst t'. destruct a; [l|]. destruct (kw_lookup w) as [k|] eqn:Ek; [|l].
    assert (D : k <> TBoolean -> k <> TDefault -> vg k (VStr w)).
    { intros N1 N2. split; [eapply kw_vt; eassumption|]. intros ->. apply kw_type in Ek. subst w. exact HT. }
    destruct k; try (l; apply D; discriminate). all: l. destruct (o_tasks o); (split; [reflexivity|discriminate]).
  - destruct Ht as [-> | [-> | ->]]; l.
Qed.
Definition num (t : tok) := t = TInteger \/ t = TFloat.
Definition npost ns (_ : unit) c' := exists t' v', Sc ns t' v' c' /\ vg t' v' /\ num t'.
Ltac ln := c_go; try (eexists; eexists; split; [eassumption|split; [apply vt_vg; [reflexivity|discriminate]|first [left; reflexivity|right; reflexivity]]]).
Lemma float_ok ns t v c start d : Sc ns t v c -> wp Ec (consumeFloat start d) c (npost ns).
Proof. intros HS. unfold consumeFloat. ln. Qed.
Lemma backtick_ok ns t v c : Sc ns t v c -> wp Ec consumeBacktickedString c (post true ns (fun _ => True)).
Proof. intros HS. unfold consumeBacktickedString. l. Qed.
Lemma op_token_ok ns t v c alts dflt : Forall (fun a => vg (snd a) VNil) alts -> Sc ns t v c ->
  (forall c', Sc ns t v c' -> wp Ec dflt c' (post true ns (fun _ => True))) ->
  wp Ec (op_token alts dflt) c (post true ns (fun _ => True)).
Proof.
  intros Ha HS HD. unfold op_token. do 2 c1. destruct a as [ch sz]. induction Ha as [|[x t'] l' Hg Hl IH]; cbn [op_choice]; [auto|].
  destruct (ch =? x); [|exact IH]. l.
Qed.
Lemma number_ok ns t v c start : Sc ns t v c -> wp Ec (lex_number start) c (npost ns).
Proof. intros HS. unfold lex_number. ln. eapply float_ok; eassumption. Qed.
Lemma zero_ok ns t v c start : Sc ns t v c -> wp Ec (lex_zero start) c (npost ns).
Proof. intros HS. unfold lex_zero. ln. eapply float_ok; eassumption. Qed.
Lemma npost_post ns m c : wp Ec m c (npost ns) -> wp Ec m c (post true ns (fun _ => True)).
Proof. intros H. eapply wp_weaken; [exact H|]. intros a c' (t' & v' & H1 & H2 & _). exists t', v'. auto. Qed.
Lemma variable_ok ns t v c start : Sc ns t v c -> wp Ec (lex_variable start) c (post true ns (fun _ => True)).
Proof. intros HS. unfold lex_variable. l. all: eapply qname_ok; [auto|eassumption]. Qed.
Lemma paren_ok ns t v c start : Sc ns t v c -> wp Ec (lex_paren start) c (post true ns (fun _ => True)).
Proof. intros HS. unfold lex_paren. l. destruct (_ =? _); tv. Qed.
Lemma colon_ok ns t v c start : Sc ns t v c -> wp Ec (lex_colon start) c (post true ns (fun _ => True)).
Proof. intros HS. unfold lex_colon. l. all: eapply qname_ok; [auto|eassumption]. Qed.
Lemma minus_ok ns t v c : Sc ns t v c -> wp Ec (lex_minus rec) c (post true ns (fun _ => True)).
Proof. intros HS. unfold lex_minus. l; eapply consumeEPP_ok; eassumption. Qed.
Lemma percent_ok ns t v c : Sc ns t v c -> wp Ec (lex_percent rec) c (post true ns (fun _ => True)).
Proof. intros HS. unfold lex_percent. l; eapply consumeEPP_ok; eassumption. Qed.
Ltac ops := eapply op_token_ok; [repeat constructor; discriminate|eassumption|c_clr; intros; l].
Lemma less_ok ns t v c : Sc ns t v c -> wp Ec (lex_less rec) c (post true ns (fun _ => True)).
Proof. intros HS. unfold lex_less. l. ops. Qed.
Lemma pipe_ok ns t v c : Sc ns t v c -> wp Ec lex_pipe c (post true ns (fun _ => True)).
Proof. intros HS. unfold lex_pipe. l. ops. Qed.
Lemma at_ok ns t v c : Sc ns t v c -> wp Ec (lex_at rec) c (post true ns (fun _ => True)).
Proof. intros HS. unfold lex_at. l. eapply heredoc_ok; eassumption. Qed.
Lemma lex_token_ok ns t v c a b ch : Sc ns t v c -> wp Ec (lex_token rec a b ch) c (post true ns (fun _ => True)).
Proof.
  intros HS. unfold lex_token.
  repeat match goal with
  | |- wp _ (if ?b then _ else _) _ _ =>
    destruct b;
    [ first [ apply npost_post; eapply number_ok; eassumption | apply npost_post; eapply zero_ok; eassumption | eapply variable_ok; eassumption
            | eapply paren_ok; eassumption | eapply colon_ok; eassumption | eapply minus_ok; eassumption
            | eapply percent_ok; eassumption | eapply less_ok; eassumption | eapply pipe_ok; eassumption | eapply at_ok; eassumption
            | eapply consumeDouble_ok; eassumption | eapply consumeSingle_ok; eassumption
            | eapply qname_ok; [auto|eassumption]
            | ops; fail
            | l; fail
            | idtac ] | ]
  end.
  all: try (l; destruct (_ : bool); tv; fail).
  - l.
    + c_call consumeRegexp_ok. l.
  - l. eapply backtick_ok; eassumption.
Qed.
(** a digit is read as a number *)
Lemma skipWhite_digit b c d w : rune_at (c_pos c) c = inl (d, w) -> isDecimalDigit d = true ->
  skipWhite b c = Ok (d, c_pos c) (with_pos (c_pos c + w) c).
Proof.
  intros E D. unfold skipWhite, while, loop_fuel. replace (2 * List.length (c_text c) + 8)%nat with (S (2 * List.length (c_text c) + 7)) by lia.
  cbn [loop]. unfold bind at 1. unfold skipWhite_step. unfold bind at 1, next. rewrite E.
  unfold isDecimalDigit, in_range in D.
  repeat (rewrite (proj2 (Z.eqb_neq d _)) by (intros ->; discriminate D)). reflexivity.
Qed.
Lemma nextToken_ok ns t v c : Sc ns t v c ->
  wp Ec (nextToken_body rec) c (fun _ c' => exists t' v', Sc ns t' v' c' /\ vg t' v' /\ (digit_next c -> num t')).
Proof.
  intros HS.
  assert (G0 : wp Ec (nextToken_body rec) c (post true ns (fun _ => True))).
  { unfold nextToken_body. c_go. eapply lex_token_ok; eassumption. }
  assert (G1 : digit_next c -> wp Ec (nextToken_body rec) c (npost ns)).
  { intros (d & w & Ed & Hd). unfold nextToken_body. apply wp_bind, wp_ask. apply wp_bind. unfold wp at 1. rewrite (@skipWhite_digit false c d w Ed Hd).
    assert (HS1 : Sc ns t v (with_pos (c_pos c + w) c)) by exact HS. clear HS. apply wp_bind. c_frame. unfold lex_token.
    destruct (in_range "1"%ch d "9"%ch) eqn:E1; [eapply number_ok; eassumption|].
    assert (d = "0"%ch) as ->. { unfold isDecimalDigit, in_range in *. lia. }
    cbn. eapply zero_ok; eassumption. }
  unfold wp in *. destruct (nextToken_body rec c) eqn:E; [|exact G0|exact I].
  destruct G0 as (t' & v' & H1 & H2 & _). exists t', v'. split; [exact H1|]. split; [now apply H2|].
  intros D. destruct (G1 D) as (t2 & v2 & K1 & _ & K3). destruct H1 as (_ & _ & _ & <- & _). destruct K1 as (_ & _ & _ & <- & _). exact K3.
Qed.
End Rec.
