(** * SpliceProof: the lexer reads strings with interpolations *)
From Verif Require Import Base Float Tokens Ast Ctx Locator Lexer Parser Utf8Facts SpecReader ReaderProof LexBase SpecLex GapProof LexTokens LexPunct Evals LexStrings LexStream LexCur Ends SpecGrammar SpecSplice GrammarBase GrammarFirst GrammarTree GrammarSem GrammarExprs GrammarStmts GrammarMain.
From Coq Require Import Lia ZifyBool.

(** ** The text after the closing brace *)
Definition longer (s : str) (k : tk) : tk := mktk (k_gap k) (k_brk k) (k_tok k) (k_val k) (k_radix k) (k_txt k ++ s).
Lemma render_app a b : render (a ++ b) = render a ++ render b.
Proof. unfold render. apply flat_map_app. Qed.
Lemma render_last ks k s : render (ks ++ [longer s k]) = render (ks ++ [k]) ++ s.
Proof. rewrite !render_app. cbn [render flat_map longer k_gap k_txt]. rewrite !app_nil_r, !app_assoc. reflexivity. Qed.
Lemma double_colon_more a b s : a <> [] -> (b = a ++ s -> double_colon b -> (exists x, a = x :: [] ) \/ double_colon a).
Proof. intros Ha -> (s' & E). destruct a as [|x [|y a]]; [congruence|left; eauto|]. right. cbn in E. injection E as -> -> E. now exists a. Qed.
Lemma clash_more t txt a s : a <> [] -> (forall x, a = [x] -> x <> ":"%ch) -> clash t txt (a ++ s) -> clash t txt a.
Proof.
  intros Ha H1 H. assert (HF : first_byte (a ++ s) = first_byte a) by (destruct a; [congruence|reflexivity]).
  assert (HD : double_colon (a ++ s) -> double_colon a).
  { intros X. destruct (@double_colon_more a _ s Ha eq_refl X) as [(x & ->)|Y]; [|exact Y]. destruct X as (s' & E). cbn in E. injection E as E _. destruct (H1 x eq_refl E). }
  unfold clash in *. rewrite HF in H. destruct t; try exact H; try tauto. destruct (isDecimalDigit (first_byte (skipn 1 txt))); tauto.
Qed.
Lemma clash_end t x s : t = TEnd -> ~ clash t x s.
Proof. intros -> []. Qed.
Lemma closing o S k : written o (mkmode true S) (k_tok k) (k_val k) (k_radix k) (k_txt k) -> k_tok k = TEnd -> k_val k = VNil /\ exists s, k_txt k = "}"%ch :: s.
Proof. intros H E. rewrite E in H. destruct (token_end_inv H) as [A [[X _]|[_ B]]]; [discriminate X|auto]. Qed.
(** text is only in templates, and not in their strings *)
Lemma no_text o v r x : ~ token_text o TRenderString v r x.
Proof.
  intros H. inversion H as [ | ? ? ? HI | ? ? ? HI | | | | | | | | | | | | | | | | | | | | ]; subst.
    - unfold punctuation in HI. cbn [In] in HI. repeat (destruct HI as [HI|HI]; [discriminate|]). destruct HI.
    - unfold reserved in HI. cbn [In] in HI. repeat (destruct HI as [HI|HI]; [discriminate|]). destruct HI.
    - destruct (o_tasks o); discriminate.
Qed.
Lemma text_only o m v r x : written o m TRenderString v r x -> o_epp o = true /\ embedded m = false.
Proof.
  intros H. inversion H; subst; try discriminate; auto. match goal with H : token_text _ _ _ _ _ |- _ => destruct (no_text H) end.
Qed.
Lemma stream_brace o S ks k : forall p2 p, stream o (mkmode true S) p2 p (ks ++ [k]) -> k_tok k = TEnd -> exists a b, render (ks ++ [k]) = a ++ "}"%ch :: b.
Proof.
  induction ks as [|k0 ks IH]; intros p2 p HS Hk; cbn [app stream embedded] in HS; destruct HS as (W & _ & _ & _ & _ & _ & HS).
  - destruct (closing W Hk) as (_ & s & E). cbn [app render flat_map]. rewrite E, app_nil_r. eauto.
  - destruct (IH _ _ HS Hk) as (a & b & E). cbn [app render flat_map]. fold (render (ks ++ [k])). rewrite E. exists ((k_gap k0 ++ k_txt k0) ++ a), b. now rewrite !app_assoc.
Qed.
Lemma stream_more o S ks k s : forall p2 p, stream o (mkmode true S) p2 p (ks ++ [k]) -> k_tok k = TEnd -> stream o (mkmode true S) p2 p (ks ++ [longer s k]).
Proof.
  induction ks as [|k1 ks IH]; intros p2 p HS Hk; cbn [app stream embedded] in *; destruct HS as (H1 & H2 & H3 & H4 & H0 & H5 & H6).
  - destruct (closing H1 Hk) as (Ev & s0 & Es). unfold glued, look in *. cbn [longer k_gap k_brk k_tok k_val k_radix k_txt]. rewrite Hk, Es, Ev in *.
    split; [apply wr_close; reflexivity|]. split; [exact H2|]. split; [exact H3|]. split; [intros []|]. split; [discriminate|]. auto.
  - split; [exact H1|]. split; [exact H2|].
    assert (HL : look (ks ++ [longer s k]) = look (ks ++ [k])).
    { destruct ks; [|reflexivity]. cbn [app look longer k_txt]. cbn [app stream embedded] in H6. destruct H6 as (W & _). destruct (closing W Hk) as (_ & s0 & ->). reflexivity. }
    rewrite HL. split; [exact H3|]. split; [|split; [intros X; rewrite X in H1; destruct (text_only H1); discriminate|split; [intros X; specialize (H5 X); destruct ks; discriminate|apply IH; assumption]]].
    intros X. apply H4. rewrite render_last in X. destruct (stream_brace H6 Hk) as (a & b & E). eapply clash_more; [| |exact X].
    + rewrite E. destruct a; discriminate.
    + intros x Ex. rewrite E in Ex. destruct a as [|y [|? ?]]; cbn in Ex; try discriminate. injection Ex as <- _. discriminate.
Qed.

(** ** Names as variables *)
Definition receiver (e : expr) : Prop := match e with EBin _ KNamedAccess _ _ _ => False | _ => True end.
(** method calls have a named access as their functor *)
Fixpoint spine (e : expr) : Prop :=
  match e with
  | ECallMethod _ r f _ _ => r = true /\ match f with EBin _ KNamedAccess op l _ => op = [] /\ receiver l /\ spine l | _ => False end
  | _ => True
  end.
Fixpoint links (e : expr) : Prop :=
  match e with EBin _ KNamedAccess op l _ => op = [] /\ links l | _ => spine e end.
Lemma links_invoke e : links e -> spine (invoke e) /\ receiver (invoke e).
Proof.
  induction e; try (intros H; split; [exact H|exact Logic.I]). 
  destruct k; cbn [links invoke]; intros H; try (split; exact Logic.I).
  destruct H as [-> H]. destruct (IHe1 H) as [A B]. cbn [spine receiver]. auto.
Qed.
Lemma spine_links e : spine e -> receiver e -> links e.
Proof. destruct e; try (intros H _; exact H). destruct k; try (intros _ _; exact Logic.I). intros _ []. Qed.
Lemma call_links e args l : links e -> links (call e args l).
Proof.
  intros H. destruct e; try exact Logic.I. destruct k; try exact Logic.I. cbn [links] in H. destruct H as [-> H]. destruct (links_invoke H) as [A B]. cbn [call links spine]. auto.
Qed.
Definition shapely (n : nt) (es : list expr) : Prop :=
  match n with
  | Chain => Forall links es
  | Atom | Primary | Unary | Op _ | Select | Expression | Resource | Assign | Rel | If _ | StepOf _ _ => Forall (fun e => spine e /\ receiver e) es
  | _ => True
  end.
Lemma D_shapely wf ns n ts es : D wf ns n ts es -> shapely n es.
Proof.
  induction 1; cbn [shapely] in *; try exact Logic.I; try assumption; try (repeat constructor; fail).
  all: try match goal with H : Forall _ [?x] |- _ => inversion H; subst end.
  all: try (apply Forall_cons; [|apply Forall_nil]).
  all: try tauto.
  all: try solve [apply call_links; assumption].
  all: repeat match goal with H : Forall _ [?x] |- _ => apply Forall_inv in H end.
  - apply spine_links; tauto.
  - cbn [links]. auto.
  - cbn [links]. auto.
  - now apply links_invoke.
  - match goal with H : In _ operators |- _ => unfold operators in H; cbn [In] in H; repeat (destruct H as [H|H]; [inversion H; subst; split; exact Logic.I|]); destruct H end.
Qed.
Definition functor (f : expr) : expr := match f with EBin _ KNamedAccess _ l r => EBin z KNamedAccess [] (as_variable l) r | _ => f end.
Lemma unchanged l : match strip l with EQName _ _ | EAccess _ _ _ | ECallMethod _ _ _ _ _ => False | _ => True end -> as_variable (strip l) = strip l.
Proof. destruct (strip l); try reflexivity; intros []. Qed.
Fixpoint convert_ok (f : expr) (start : Z) {struct f} : match strip f with EBin _ KNamedAccess op l _ => op = [] /\ receiver l /\ spine l | _ => False end ->
  exists f' b, convertNamedAccessLHS f start = Some (f', b) /\ strip f' = functor (strip f) /\ (b = false -> f' = f).
Proof.
  destruct f; cbn [strip]; try (intros []; fail). destruct k; try (intros []; fail). cbn [functor convertNamedAccessLHS]. intros (-> & HR & HS).
  destruct f1; try (eexists _, _; split; [reflexivity|]; split; [reflexivity|discriminate]); try (eexists _, _; split; [reflexivity|]; split; [reflexivity|reflexivity]).
  - eexists _, _. split; [reflexivity|]. split; [|discriminate]. destruct f1; reflexivity.
  - cbn [strip receiver] in HR. destruct k; try (eexists _, _; split; [reflexivity|]; split; reflexivity). destruct HR.
  - cbn [strip spine] in HS. destruct HS as [-> HS]. destruct (convert_ok f1 start HS) as (f' & b & E1 & E2 & _). rewrite E1. eexists _, _. split; [reflexivity|]. split; [|discriminate].
    cbn [strip as_variable]. rewrite E2. destruct (strip f1); try (destruct HS; fail). destruct k; try (destruct HS; fail). reflexivity.
Qed.
Definition conv (start p : Z) (e : expr) : M expr :=
  match e with
  | EQName _ _ => ret (EUn (mkpos start (p - start)) KVariable e)
  | EAccess q o ks =>
    match o with
    | EQName qq _ => ret (EAccess (mkpos start (p_len q + 1)) (EUn (mkpos start (p_len qq + 1)) KVariable o) ks)
    | _ => ret e
    end
  | ECallMethod q _ f args lam =>
    match f with
    | EBin _ KNamedAccess _ _ _ =>
      match convertNamedAccessLHS f start with
      | Some (f', true) => ret (ECallMethod (mkpos start (p_len q + 1)) true f' args lam)
      | Some (_, false) => ret e
      | None => throw (GoPanic GoTypeAssert)
      end
    | _ => ret e
    end
  | _ => ret e
  end.
Lemma conv_ok start p e c : spine (strip e) -> exists e', conv start p e c = Ok e' c /\ strip e' = as_variable (strip e).
Proof.
  destruct e; cbn [conv]; intros H; try (eexists; split; reflexivity).
  - destruct e; eexists; split; reflexivity.
  - cbn [strip spine] in H. destruct H as [-> H]. destruct (@convert_ok e start H) as (f' & b & E1 & E2 & E3).
    assert (E4 : strip (ECallMethod (mkpos start (p_len p0 + 1)) true f' args lambda) = as_variable (strip (ECallMethod p0 true e args lambda))).
    { cbn [strip as_variable]. rewrite E2. destruct (strip e); try (destruct H; fail). destruct k; try (destruct H; fail). reflexivity. }
    destruct e; try (destruct H; fail). destruct k; try (destruct H; fail). rewrite E1. destruct b.
    + eexists. split; [reflexivity|exact E4].
    + eexists. split; [reflexivity|]. rewrite (E3 eq_refl) in E4. exact E4.
Qed.

(** ** The expression between the braces *)
Section Inside.
Variables (o : opts) (S : expr -> str -> Prop).
Local Notation m := (mkmode true S).
Hypothesis Hfac : o_factory o = true.
Hypothesis Hm : lawful o m.
Lemma inside ks k e rest q c : stream o m (Some TRc) (Some TLc) (ks ++ [k]) -> ~ In (k_tok (hd k ks)) contextual -> k_tok k = TEnd -> k_txt k = "}"%ch :: rest ->
  (forall ns, D (o_workflow o) ns Rel ks [e]) -> defs e = [] -> c_opts c = o -> c_nls c = -1 -> at_ c (render (ks ++ [k])) -> line c q -> q < c_pos c ->
  ends (fun r => bind (r unit FNextToken) (fun _ => r expr (FParse TRc true))) c (fun e1 c1 => strip e1 = e /\ at_ c1 rest /\ c_text c1 = c_text c /\ c_names c1 = c_names c
    /\ c_defs c1 = c_defs c /\ c_opts c1 = o /\ c_nls c1 = -1 /\ exists q', line c1 q' /\ q' < c_pos c1).
Proof.
  intros HS Hfr Hk Htx HD Hdf Ho Hn Hat HL Hq. specialize (HD (c_names c)).
  destruct (firsts_one (D_firsts HD Logic.I) eq_refl) as [Hne Hf]. destruct ks as [|k1 ks]; [congruence|]. cbn [app hd tok_of] in *.
  pose proof (stream_cons HS) as (HT & HG & HSit & _). assert (HG' : gap false (k_gap k1) /\ k_brk k1 = false) by (cbn [stream embedded] in HS; tauto).
  assert (Hp : c_pos c <> 0). { destruct HL as (pre & g & s & r & w & _ & _ & _ & _ & ->). pose proof (zlen_nonneg pre). pose proof (zlen_nonneg g). lia. }
  rewrite render_cons in Hat. apply ends_bind.
  destruct (@lex_step o m Hfac Hm (c_names c) (Some TRc) (Some TLc) k1 (ks ++ [k]) c (k_gap k1) false Ho Hn eq_refl (or_intror Hfr) HS Hat (or_introl (proj1 HG'))) as (c1 & E1 & E2 & E3 & E4 & _).
  - intros E. rewrite E in HSit. cbn in HSit. unfold glued in HSit. destruct (k_gap k1); [auto|destruct HSit; discriminate].
  - intros E. rewrite E in HSit. cbn in HSit. unfold glued in HSit. left. intros X. rewrite X in HSit. destruct HSit as [Y|(Y & _)]; discriminate.
  - intros _. left. right. right. split; [reflexivity|]. split; [exists q; split; [exact HL|pose proof (zlen_nonneg (k_gap k1)); lia]|]. split; [tauto|discriminate].
  - eapply ends_ev; [exact E1|]. apply ends_rec. cbn [Parser.body]. unfold parse_body.
    destruct (skip_ok Hfac Hm E2 (fun _ _ _ => or_intror (or_introl eq_refl))) as (r & q1 & c2 & F1 & F2 & F3 & F4). { intros k0 X. destruct ks; discriminate. }
    eapply ends_step; [exact F1|]. cbv beta iota. eapply ends_step; [reflexivity|]. cbv beta iota.
    pose proof (st_refl F2) as S2. apply (ends_cur S2). cbn [tok_of].
    assert (tok_eqb (shown m (k_tok k1)) TRc = false) as ->. { destruct (k_tok k1); try reflexivity; discriminate Hf. }
    apply ends_bind. eapply (@D_sem o m Hfac Hm (c_names c) Rel (k1 :: ks) [e] HD Logic.I e eq_refl); [exact S2|cbn [apart]; unfold stops; rewrite Hk; exact Logic.I|].
    intros e1 c9 S9 Ee Ea. apply stop_rel with (m := m) (rest := [k]) (c0 := with_pos q1 c2) (ds := [] ++ defs e) (ns := c_names c) (o := o); [exact Hfac|exact S9|cbn [apart]; unfold stops; rewrite Hk; exact Logic.I|].
    apply (ends_assert S9); [cbn [tok_of]; rewrite Hk; reflexivity|]. apply ends_ret. split; [exact Ee|]. rewrite Hdf in S9.
    destruct S9 as ((p9 & P9) & T9 & ds1 & D9 & D9'). destruct ds1; [|discriminate D9']. cbn [curp embedded] in P9. destruct P9 as (A1 & A2 & _ & _ & _ & A3 & _ & pre & A4 & _ & A5 & A6).
    split; [|split; [|split; [|split; [|split; [|split]]]]]; auto.
    + exists (pre ++ ["}"%ch]). rewrite A4, Htx, zlen_app. cbn [render flat_map app]. rewrite app_nil_r, <- app_assoc. split; [reflexivity|]. rewrite A5. reflexivity.
    + rewrite T9. cbn [with_pos c_text]. congruence.
    + rewrite D9, app_nil_r. cbn [with_pos c_defs]. congruence.
Qed.
End Inside.

(** ** What is after a name in a string *)
Lemma encode_first r s : valid_rune r = true -> r = first_byte (encode_rune r ++ s) /\ r < 128 \/ 128 <= r /\ 128 <= first_byte (encode_rune r ++ s).
Proof.
  intros Hv. unfold encode_rune. rewrite Hv. unfold encode_rune_raw. unfold valid_rune in Hv.
  destruct (Z.ltb_spec r 128); [left; auto|]. right. split; [assumption|]. assert (0 <= r / 64 /\ 0 <= r / 4096 /\ 0 <= r / 262144) by (repeat split; apply Z.div_pos; lia). destruct (r <? 2048); [|destruct (r <? 65536)]; cbn [app first_byte]; lia.
Qed.
Lemma dq_cons hex r src rs : dq hex (r :: src) rs -> rune_ok r /\ (r = ":"%ch -> exists rs', dq hex src rs').
Proof.
  intros H. inversion H; subst; try (split; [apply rune_ok_ascii; lia|intros; discriminate]). split; [assumption|]. eauto.
Qed.
Lemma dq_readable hex src rs X : dq hex src rs -> ascii_head X -> readable (encode src ++ X).
Proof.
  intros H HX. destruct src as [|r src]; [apply ascii_readable; exact HX|]. destruct (dq_cons H) as [(H1 & H2 & H3) _]. rewrite encode_cons, <- app_assoc.
  exists r, (zlen (encode_rune r)). split; [apply head_encode; assumption|]. destruct (encode_first (encode src ++ X) H1); tauto.
Qed.
Lemma dq_colon hex src rs X s' : dq hex src rs -> ascii_head X -> first_byte X <> ":"%ch -> encode src ++ X = ":"%ch :: s' -> readable s'.
Proof.
  intros H HX Hc E. destruct src as [|r src]; [change (encode [] ++ X) with X in E; rewrite E in Hc; cbn in Hc; congruence|].
  destruct (dq_cons H) as [(H1 & H2 & H3) K]. rewrite encode_cons, <- app_assoc in E. pose proof (encode_first (encode src ++ X) H1) as F. rewrite E in F. cbn [first_byte] in F.
  assert (r = ":"%ch) as -> by lia. destruct (K eq_refl) as (rs' & K'). change (encode_rune ":"%ch) with [":"%ch] in E. cbn [app] in E. injection E as <-. eapply dq_readable; eauto.
Qed.
Lemma body_start o S es txt : segments o S es txt -> exists src rs X, dq (o_hex o) src rs /\ txt = encode src ++ X /\ (first_byte X = """"%ch \/ first_byte X = "$"%ch) /\ X <> [].
Proof. intros [src rs H|src rs w radix es' rest H1 H2 H3 H4|src rs ks k e es' rest H1 H2 H3 H4 H5 H6 H7 H8]; (eexists _, _, _; split; [eassumption|]; split; [reflexivity|]; split; [cbn; auto|discriminate]). Qed.
Lemma start_ascii (X s : str) : first_byte X = """"%ch \/ first_byte X = "$"%ch -> X <> [] -> ascii_head (X ++ s) /\ first_byte (X ++ s) <> ":"%ch.
Proof. intros H Hn. destruct X as [|b X]; [congruence|]. cbn in H |- *. split; [right; eexists _, _; split; [reflexivity|lia]|lia]. Qed.
Lemma body_name_end o S es rest w s : segments o S es rest -> ~ clash TIdentifier w rest -> name_end TIdentifier (rest ++ s).
Proof.
  intros H HC. destruct (body_start H) as (src & rs & X & H1 & -> & H2 & H3). destruct (start_ascii s H2 H3) as [A1 A2].
  assert (HC' : ~ clash TIdentifier w ((encode src ++ X) ++ s)).
  { intros K. apply HC. eapply clash_more; [| |exact K].
    - destruct (encode src); [exact H3|discriminate].
    - intros x E Ex. subst x. destruct src as [|r src]; [change (encode [] ++ X) with X in E; rewrite E in H2; cbn in H2; lia|].
      rewrite encode_cons in E. pose proof (@encode_rune_nonempty r). destruct (encode_rune r) as [|y l]; [congruence|]. cbn in E. injection E as _ E. destruct l, (encode src), X; cbn in E; try discriminate. congruence. }
  rewrite <- app_assoc in *. unfold clash in HC'. split; [exact (dq_readable H1 A1)|]. split; [tauto|]. split; [tauto|]. split; [tauto|]. intros s' E. exact (dq_colon H1 A1 A2 E).
Qed.
(** ** Names *)
Lemma lexes_identifier o w radix rec scan c0 s : token_text o TIdentifier (VStr w) radix w -> c_opts c0 = o -> name_end TIdentifier s -> at_ c0 (w ++ s) ->
  lexes rec scan w c0 (lexed TIdentifier (VStr w) w c0).
Proof.
  intros HT Ho HE H. inversion HT; subst.
  - match goal with K : In _ reserved |- _ => unfold reserved in K; cbn [In] in K; repeat (destruct K as [K|K]; [discriminate|]); destruct K end.
  - pose proof (lexes_name rec scan H (@word_qualified "plan" eq_refl ltac:(discriminate)) HE) as L.
    match type of L with lexes _ _ ?w _ _ => change (lexes rec scan w c0 (lexed (if o_tasks (c_opts c0) then TPlan else TIdentifier) (VStr w) w c0)) in L end.
    match goal with K : (if _ then _ else _) = TIdentifier |- _ => rewrite ?K in L |- *; exact L end.
  - pose proof (lexes_name rec scan H ltac:(assumption) HE) as L. unfold name_token in L. rewrite kw_name in L by assumption. exact L.
  - pose proof (lexes_global rec scan H (or_introl eq_refl) ltac:(assumption) HE) as L. unfold name_token in L. rewrite kw_global in L. exact L.
Qed.
Lemma identifier_start o w radix : token_text o TIdentifier (VStr w) radix w -> exists b t, w = b :: t /\ (b = ":"%ch \/ lower b).
Proof.
  intros HT. inversion HT; subst.
  - match goal with K : In _ reserved |- _ => unfold reserved in K; cbn [In] in K; repeat (destruct K as [K|K]; [discriminate|]); destruct K end.
  - eexists _, _. split; [reflexivity|]. right. unfold lower. lia.
  - match goal with K : qualified _ w |- _ => destruct (qualified_head K) as (h & t & -> & Hh) end. eauto.
  - eexists _, _. split; [reflexivity|]. auto.
Qed.
(** ** The whole string *)
Section Scan.
Variables (o : opts) (S : expr -> str -> Prop).
Local Notation m := (mkmode true S).
Hypothesis Hfac : o_factory o = true.
Hypothesis Hm : lawful o m.
(** the state is ready to read [s]: there is something before it on the line *)
Definition ready (c : ctx) (s : str) : Prop := c_opts c = o /\ c_nls c = -1 /\ at_ c s /\ exists q, line c q /\ q < c_pos c.
Definition kept (c c1 : ctx) : Prop := c_text c1 = c_text c /\ c_names c1 = c_names c /\ c_defs c1 = c_defs c.
Lemma kept_trans a b c : kept a b -> kept b c -> kept a c.
Proof. unfold kept. intuition congruence. Qed.
Lemma ready_state c c' s : ready c s -> c_opts c' = c_opts c -> c_nls c' = c_nls c -> c_text c' = c_text c -> c_pos c' = c_pos c -> c_bol c' = c_bol c -> ready c' s.
Proof.
  intros (H1 & H2 & H3 & q & H4 & H5) E1 E2 E3 E4 E5. split; [congruence|]. split; [congruence|]. split; [eapply at_state; eauto|]. exists q. split; [eapply line_eq; eauto|congruence].
Qed.
Lemma ready_fwd c a s : ready c (a ++ s) -> ready (fwd (zlen a) c) s.
Proof.
  intros (H1 & H2 & H3 & q & H4 & H5). split; [exact H1|]. split; [exact H2|]. split; [exact (at_fwd H3)|]. exists q. split; [eapply line_eq; eauto|]. cbn. pose proof (zlen_nonneg a). lia.
Qed.
Lemma bind_assoc A B C (x : M A) (f : A -> M B) (g : B -> M C) c : bind x (fun a => bind (f a) g) c = bind (bind x f) g c.
Proof. unfold bind. destruct (x c); reflexivity. Qed.
Lemma ev_two A B C (a : recT -> M A) (b : recT -> A -> M B) (k : recT -> B -> M C) c y c1 x c2 :
  evals (fun r => bind (a r) (b r)) c y c1 -> evals (fun r => k r y) c1 x c2 -> evals (fun r => bind (a r) (fun v => bind (b r v) (k r))) c x c2.
Proof. intros H1 H2. apply (@ev_same _ _ (fun r => bind (bind (a r) (b r)) (k r))); [intros r; apply bind_assoc|]. eapply ev_bind; eauto. Qed.
Lemma interpolate_expr ks k e rest start c : stream o m (Some TRc) (Some TLc) (ks ++ [k]) -> ~ In (k_tok (hd k ks)) contextual -> k_tok k = TEnd -> k_txt k = "}"%ch :: rest ->
  (forall ns, D (o_workflow o) ns Rel ks [e]) -> defs e = [] -> ready c ("{"%ch :: render (ks ++ [k])) ->
  exists e1 c1, evals (fun r => interpolate r start) c e1 c1 /\ strip e1 = EUn z KText (as_variable e) /\ ready c1 rest /\ kept c c1.
Proof.
  intros H1 H2 H3 H4 H5 H6 H7. pose proof (@ready_fwd c ["{"%ch] _ H7) as (A1 & A2 & A3 & q & A4 & A5). destruct H7 as (_ & _ & B3 & _).
  destruct (inside Hfac Hm H1 H2 H3 H4 H5 H6 A1 A2 A3 A4 A5) as (e1 & c1 & E & E1 & E2 & E3 & E4 & E5 & E6 & E7 & E8).
  assert (Hs : spine (strip e1)) by (pose proof (D_shapely (H5 [])) as K; cbn [shapely] in K; apply Forall_inv in K; rewrite E1; tauto).
  destruct (@conv_ok start (c_pos c1) e1 c1 Hs) as (e2 & F1 & F2).
  exists (EUn (mkpos start (c_pos c1 - start)) KText e2), c1. split; [|split; [cbn [strip]; congruence|split; [repeat (split; [assumption|]); assumption|repeat split; assumption]]].
  unfold interpolate. eapply ev_step; [exact (at_peek B3 (@head_ascii "{"%ch _ ltac:(lia)))|]. cbv beta iota. change ("{"%ch =? "{"%ch) with true. cbv iota.
  eapply ev_step; [reflexivity|]. change (with_pos (c_pos c + 1) c) with (fwd 1 c).
  eapply ev_two; [exact E|]. eapply ev_step; [reflexivity|]. 
  match goal with |- evals (fun _ => bind ?x ?f) _ _ _ => change x with (conv start (c_pos c1) e1) end. eapply ev_step; [exact F1|]. apply ev_ret.
Qed.
Lemma interpolate_name w radix rest start c : token_text o TIdentifier (VStr w) radix w -> name_end TIdentifier rest -> ready c (w ++ rest) ->
  exists e1 c1, evals (fun r => interpolate r start) c e1 c1 /\ strip e1 = EUn z KText (EUn z KVariable (EQName z w)) /\ ready c1 rest /\ kept c c1.
Proof.
  intros HT HE HR. destruct (identifier_start HT) as (b & t & Ew & Hb). unfold lower in Hb. pose proof HR as (R1 & R2 & R3 & q & R4 & R5).
  assert (Hh : head_rune (w ++ rest) = Some (b, 1)) by (rewrite Ew; apply head_ascii; lia).
  assert (HV : visible ([] ++ w ++ rest) b 1) by (apply visible_solid; [exact Hh|]; unfold solid, blank; lia).
  set (c0 := with_tok TVariable VNil c). assert (R3' : at_ c0 (w ++ rest)) by (eapply at_state; [exact R3|reflexivity|reflexivity]).
  destruct (@gap_skip false [] c0 (w ++ rest) b 1 gap_nil R3' R2 HV) as (bl & Hbl & Es). change (zlen (@nil Z)) with 0 in Es. rewrite Z.add_0_r, Z.add_0_l in Es. cbn in Hbl. subst bl.
  set (c2 := with_tsp (c_pos c) (with_bol (c_bol c) c0)). assert (R4' : at_ c2 (w ++ rest)) by (eapply at_state; [exact R3|reflexivity|reflexivity]).
  eexists _, (lexed TIdentifier (VStr w) w c2). split; [|split; [|split]].
  - unfold interpolate. eapply ev_step; [exact (at_peek R3 Hh)|]. cbv beta iota. replace (b =? "{"%ch) with false by lia.
    eapply ev_step; [reflexivity|]. fold c0. assert (X : (b =? ":"%ch) || isLowercaseLetter b || isDecimalDigit b = true) by (unfold isLowercaseLetter, in_range; lia). rewrite X.
    eapply ev_bind.
    { apply ev_rec. cbn [Parser.body]. unfold nextToken_body. eapply ev_step; [reflexivity|]. eapply ev_step; [exact Es|]. cbv beta iota. eapply ev_step; [reflexivity|].
      pose proof (fun r => @lexes_identifier o w radix r (c_pos c0) c2 rest HT R1 HE R4') as L. unfold lexes in L. apply ev_all. intros r. specialize (L r). rewrite Ew in L at 1. cbn [first_byte] in L. exact L. }
    eapply ev_step; [reflexivity|]. cbn [lexed with_tok c_tok]. change (tok_eqb TIdentifier TIdentifier) with true. cbn [negb]. eapply ev_step; [reflexivity|]. eapply ev_step; [reflexivity|]. cbn [with_tok c_val]. apply ev_ret.
  - reflexivity.
  - eapply ready_state; [exact (@ready_fwd c w rest HR)|reflexivity..].
  - repeat split; reflexivity.
Qed.
Lemma text_strip ss p rs : map strip (match encode rs with [] => ss | _ => ss ++ [EString p (encode rs)] end) = map strip ss ++ chars rs.
Proof.
  destruct rs as [|r rs]; [cbn; now rewrite app_nil_r|]. unfold chars. rewrite encode_cons. pose proof (@encode_rune_nonempty r). destruct (encode_rune r) as [|x l]; [congruence|].
  cbn [app]. rewrite map_app. reflexivity.
Qed.
Definition scan (dstart : Z) (ss : list expr) (r : recT) : M (option (list expr)) :=
  bind next (fun p => r _ (FDelim """"%ch dstart HDouble [] (fst p) (snd p) (Some ss))).
Lemma scan_scanning dstart ss c t x c' : at_ c t -> readable t -> evals (scanning """"%ch dstart HDouble [] (c_pos c) (Some ss)) c x c' -> evals (scan dstart ss) c x c'.
Proof.
  intros H (r & w & Hh & _). apply ev_same. intros rec. unfold scan, scanning, bind. rewrite (at_next H Hh). reflexivity.
Qed.
Lemma piece src rs X dstart ss c e1 c1 : dq (o_hex o) src rs -> ready c (encode src ++ "$"%ch :: X) ->
  evals (fun r => interpolate r (c_pos c)) (fwd (zlen (encode src) + 1) c) e1 c1 ->
  exists p, forall x c', evals (scan dstart ((match encode rs with [] => ss | _ => ss ++ [EString p (encode rs)] end) ++ [e1])) (with_tsp (c_pos c1) c1) x c' -> evals (scan dstart ss) c x c'.
Proof.
  intros HQ HR HI. exists (mkpos (c_tsp c) (c_pos c + (zlen (encode src) + 1) - c_tsp c)). intros x c' HK. destruct HR as (R1 & R2 & R3 & _).
  assert (HX : ascii_head ("$"%ch :: X)) by (right; eexists _, _; split; [reflexivity|lia]).
  eapply scan_scanning; [exact R3|exact (dq_readable HQ HX)|]. eapply dq_run; [exact HQ|exact R3|rewrite R1; exact Hfac|now rewrite R1|]. pose proof (at_fwd R3) as R4. cbn [app].
  eapply scan_next; [exact (at_next R4 (@head_ascii "$"%ch _ ltac:(lia)))|]. rewrite fwd_fwd.
  apply (@ev_same _ _ (fun r => bind (handleInterpolation r (c_pos c) ss (encode rs)) (fun ss' => '(ec', start') <- next ;; r _ (FDelim """"%ch dstart HDouble [] ec' start' (Some ss'))))).
  { intros r. unfold delim_body. change ("$"%ch =? 0) with false. change ("$"%ch =? """"%ch) with false. change ("$"%ch =? "\"%ch) with false. change ("$"%ch =? "$"%ch) with true. cbv iota. reflexivity. }
  eapply ev_bind; [|eapply ev_same; [|exact HK]].
  - unfold handleInterpolation. eapply ev_step; [reflexivity|]. eapply ev_step; [reflexivity|]. cbv zeta. eapply ev_bind; [exact HI|]. eapply ev_step; [reflexivity|]. apply ev_ret.
  - intros r. unfold scan, bind. destruct (next (with_tsp (c_pos c1) c1)) as [[? ?]| |]; reflexivity.
Qed.
Lemma finish_piece rs ss e1 c1 rest s es v dstart c p : 
  (forall c s dstart ss, ready c (rest ++ s) -> exists ss' rs c1, evals (scan dstart ss) c (Some ss') c1 /\ c_tok c1 = TString /\ c_val c1 = VStr (encode rs) /\ map strip ss' ++ chars rs = map strip ss ++ es /\ ready c1 s /\ kept c c1) ->
  (forall x c', evals (scan dstart ((match encode rs with [] => ss | _ => ss ++ [EString p (encode rs)] end) ++ [e1])) (with_tsp (c_pos c1) c1) x c' -> evals (scan dstart ss) c x c') ->
  strip e1 = v -> ready c1 (rest ++ s) -> (forall x, kept c x -> kept c x) -> kept c c1 ->
  exists ss' rs' c2, evals (scan dstart ss) c (Some ss') c2 /\ c_tok c2 = TString /\ c_val c2 = VStr (encode rs') /\ map strip ss' ++ chars rs' = map strip ss ++ chars rs ++ v :: es /\ ready c2 s /\ kept c c2.
Proof.
  intros IH HK Hv HR _ Hkp. destruct (IH (with_tsp (c_pos c1) c1) s dstart ((match encode rs with [] => ss | _ => ss ++ [EString p (encode rs)] end) ++ [e1])) as (ss' & rs' & c2 & E1 & E2 & E3 & E4 & E5 & E6).
  - eapply ready_state; [exact HR|reflexivity..].
  - exists ss', rs', c2. split; [exact (HK _ _ E1)|]. split; [exact E2|]. split; [exact E3|]. split; [|split; [exact E5|]].
    + rewrite E4, map_app, text_strip, <- !app_assoc. cbn [map app]. now rewrite Hv.
    + eapply kept_trans; [exact Hkp|exact E6].
Qed.
Lemma body_scan es txt : segments o S es txt -> forall c s dstart ss, ready c (txt ++ s) ->
  exists ss' rs c1, evals (scan dstart ss) c (Some ss') c1 /\ c_tok c1 = TString /\ c_val c1 = VStr (encode rs) /\ map strip ss' ++ chars rs = map strip ss ++ es /\ ready c1 s /\ kept c c1.
Proof.
  induction 1 as [src rs HQ|src rs w radix es rest HQ HT HC HB IH|src rs ks k e es rest HQ HS Hf Hk Htx HD Hdf HB IH]; intros c s dstart ss HR.
  - rewrite <- app_assoc in HR. cbn [app] in HR. pose proof HR as (R1 & R2 & R3 & _).
    exists ss, rs. eexists. split; [|split; [|split; [|split; [|split]]]].
    + eapply scan_scanning; [exact R3|apply (dq_readable HQ); right; eexists _, _; split; [reflexivity|lia]|]. eapply dq_scan; [exact HQ|exact R3|rewrite R1; exact Hfac|now rewrite R1].
    + reflexivity.
    + reflexivity.
    + reflexivity.
    + pose proof (@ready_fwd c (encode src ++ [""""%ch]) s) as K. rewrite <- app_assoc, zlen_app in K. eapply ready_state; [exact (K HR)|reflexivity..].
    + repeat split; reflexivity.
  - rewrite <- app_assoc in HR. cbn [app] in HR. rewrite <- app_assoc in HR.
    assert (R' : ready (fwd (zlen (encode src) + 1) c) (w ++ rest ++ s)).
    { pose proof (@ready_fwd c (encode src ++ ["$"%ch]) (w ++ rest ++ s)) as K. rewrite <- app_assoc, zlen_app in K. exact (K HR). }
    destruct (@interpolate_name w radix (rest ++ s) (c_pos c) _ HT (body_name_end s HB HC) R') as (e1 & c1 & E1 & E2 & E3 & E4).
    destruct (@piece src rs (w ++ rest ++ s) dstart ss c e1 c1 HQ HR E1) as (p & K). eapply finish_piece; eauto.
  - rewrite <- app_assoc in HR. cbn [app] in HR. rewrite <- render_last in HR.
    assert (R' : ready (fwd (zlen (encode src) + 1) c) ("{"%ch :: render (ks ++ [longer s k]))).
    { pose proof (@ready_fwd c (encode src ++ ["$"%ch]) ("{"%ch :: render (ks ++ [longer s k]))) as K. rewrite <- app_assoc, zlen_app in K. exact (K HR). }
    assert (Hf' : ~ In (k_tok (hd (longer s k) ks)) contextual) by (destruct ks; exact Hf).
    assert (Htx' : k_txt (longer s k) = "}"%ch :: rest ++ s) by (cbn [longer k_txt]; rewrite Htx; reflexivity).
    destruct (@interpolate_expr ks (longer s k) e (rest ++ s) (c_pos c) _ (stream_more s HS Hk) Hf' Hk Htx' HD Hdf R') as (e1 & c1 & E1 & E2 & E3 & E4).
    destruct (@piece src rs _ dstart ss c e1 c1 HQ HR E1) as (p & K). eapply finish_piece; eauto.
Qed.
Lemma body_lexes es rest : segments o S es rest -> (exists i, In (EUn z KText i) es) -> forall c0 s q scan, c_opts c0 = o -> c_nls c0 = -1 -> at_ c0 ((""""%ch :: rest) ++ s) -> line c0 q -> q <= c_pos c0 ->
  exists c1 e', ev_lexes scan (""""%ch :: rest) c0 c1 /\ c_tok c1 = TConcatenatedString /\ c_val c1 = VExpr e' /\ strip e' = EConcat z es /\ c_pos c1 = c_pos c0 + zlen (""""%ch :: rest)
    /\ c_text c1 = c_text c0 /\ c_names c1 = c_names c0 /\ c_defs c1 = c_defs c0 /\ c_opts c1 = o /\ c_nls c1 = -1
    /\ exists q', line c1 q' /\ q' < c_pos c1.
Proof.
  intros HB (i & HI) c0 s q sc Ho Hn HA HL Hq.
  assert (R : ready (fwd 1 c0) (rest ++ s)).
  { split; [exact Ho|]. split; [exact Hn|]. split; [exact (at_fwd1 HA)|]. exists q. split; [eapply line_eq; [exact HL|reflexivity|reflexivity]|]. cbn. lia. }
  destruct (body_scan HB (c_pos (fwd 1 c0) - 1) [] R) as (ss & rs & c1 & E1 & E2 & E3 & E4 & (F1 & F2 & F3 & q' & F4 & F5) & K1 & K2 & K3). cbn [map app] in E4.
  set (segs := match encode rs with [] => ss | _ => ss ++ [EString (mkpos (c_tsp c1) (c_pos c1 - c_tsp c1)) (encode rs)] end).
  assert (Hseg : map strip segs = es) by (unfold segs; rewrite text_strip; exact E4).
  assert (Hn1 : ss <> []). { intros ->. cbn [map app] in E4. subst es. destruct rs; cbn [chars In] in HI; [destruct HI|destruct HI as [X|[]]; discriminate X]. }
  assert (Hn2 : forall p t, segs <> [EString p t]). { intros p t X. rewrite X in Hseg. cbn in Hseg. rewrite <- Hseg in HI. destruct HI as [X'|[]]; discriminate X'. }
  assert (Hn3 : segs <> []). { intros X. rewrite X in Hseg. cbn in Hseg. rewrite <- Hseg in HI. destruct HI. }
  set (e' := EConcat (mkpos (byteOffset (hd (EUndef z) segs)) (c_pos c1 - byteOffset (hd (EUndef z) segs))) segs).
  exists (with_tok TConcatenatedString (VExpr e') c1), e'. split; [|split; [reflexivity|split; [reflexivity|split; [cbn [e' strip]; now rewrite Hseg|]]]].
  - unfold ev_lexes. match goal with |- evals ?m _ _ _ => change m with (fun r : recT => consumeDoubleQuotedString r) end. unfold consumeDoubleQuotedString.
    eapply ev_step; [reflexivity|]. eapply ev_step; [reflexivity|]. change (o_factory (c_opts (fwd 1 c0))) with (o_factory (c_opts c0)). rewrite Ho, Hfac.
    eapply ev_bind; [eapply ev_same; [|exact E1]|].
    + intros r. unfold consumeDelimitedString, scan, bind. destruct (next (fwd 1 c0)) as [[a b] c2|e c2|]; reflexivity.
    + apply ev_all. intros r. cbn [negb]. unfold value_string. unfold bind at 1 2. unfold ask at 1. rewrite E3. unfold ret at 1. unfold bind at 1, ask at 1. unfold bind at 1, getPos, ask. cbv zeta.
      destruct ss as [|s0 ss]; [congruence|]. fold segs.
      revert e'. destruct segs as [|g0 segs']; [congruence|]. intros e'. destruct g0; try reflexivity. destruct segs'; [destruct (Hn2 p s1 eq_refl)|reflexivity].
  - pose proof (at_len F3) as L1. pose proof (at_len HA) as L2. unfold len in *. rewrite K1 in L1. cbn [fwd with_pos c_text] in L1.
    cbn [with_tok c_pos c_text c_names c_defs c_opts c_nls]. split; [rewrite zlen_app in L2; lia|]. split; [exact K1|]. split; [exact K2|]. split; [exact K3|]. split; [exact F1|]. split; [exact F2|].
    exists q'. split; [eapply line_eq; [exact F4|reflexivity|reflexivity]|exact F5].
Qed.
End Scan.
Theorem splices_lawful o n b : o_factory o = true -> lawful o (mkmode b (splices o n)).
Proof.
  intros Hfac. revert b. induction n as [|n IH]; intros b e txt HS; cbn [strings splices] in HS; [destruct HS|].
  destruct HS as [es rest HB HI]. split; [eexists; reflexivity|]. intros c0 s q scan Ho Hn HA HL Hq. exact (@body_lexes o (splices o n) Hfac (IH true) es rest HB HI c0 s q scan Ho Hn HA HL Hq).
Qed.
