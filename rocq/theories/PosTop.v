(** * PosTop: Parse ends, and reports positions in the text *)
From Verif Require Import Base Float Tokens Ast Ctx Locator Lexer Parser Utf8Facts SpecReader LocatorProof FuelMono SpecParse PosBase PosLex PosSpec PosTok PosParse PosBodies PosMain.
From Coq Require Import Lia ZifyBool Sorted.

Section Top.
Variable T : str.
Notation L := (LT T).
(** A state whose token start is that of an earlier text *)
Notation stale p v t s c := (S_ T true p v t s c) (only parsing).
Section At.
Variables (p v : Z).
Definition at_ok : Prop := 0 <= p <= L + 1 /\ -1 <= v <= L + 1.
Hypothesis HA : at_ok.
Lemma Hp : 0 <= p <= L + 1. Proof. apply HA. Qed.
Lemma Hv : -1 <= v <= L + 1. Proof. apply HA. Qed.
Definition q_at : st := mkst p v TEnd 0.
Lemma q_ok : okq T q_at.
Proof. unfold okq, rngs. cbn. pose proof (@LT_nonneg T). pose proof Hp. pose proof Hv. lia. Qed.
Definition BX (k : Z) : Z := BC T q_at k.
Lemma BX_eq k : BX k = 100 * (AM T - (3 * ky T p v + 2)) + k.
Proof. unfold BX, BC, aq. cbn [qt q_at]. change (weight TEnd) with 0. unfold kq. cbn [q_at qp qv]. lia. Qed.
Lemma BX_pos k : 1 <= k -> 0 < BX k.
Proof. rewrite BX_eq. pose proof (@ky_range T p v Hp). unfold AM. lia. Qed.

(** the first token of a text *)
Lemma first_token n b t s c (Q : unit -> ctx -> Prop) : S_ T b p v t s c ->
  (forall q' c', rel T q_at false q' -> (qt q' <> TEnd -> ky T p v < kq T q') -> Sq T q' c' -> Q tt c') ->
  wpf (Ep T) (Z.of_nat n < BX 50) (run n FNextToken) c Q.
Proof.
  intros Hs HQ. destruct n as [|n]; cbn [run].
  - unfold wpf, out_of_fuel. apply BX_pos. lia.
  - cbn [body]. assert (Z.of_nat (S n) = Z.of_nat n + 1) as -> by lia.
    eapply r_nextToken_body with (BC := BX 50); [apply respects_run|exact Hs|exact Hp|exact Hv|rewrite BX_eq; lia|].
    intros p' v' t' s' R K1 K2 K3 K4 c' Hs'. apply (HQ (mkst p' v' t' s') c'); [|exact K2|exact Hs'].
    split; [exact R|]. split; [|discriminate]. unfold geq, aq, vq, kq, rq. cbn [qp qv qt qs q_at]. change (weight TEnd) with 0.
    split; [|split; [exact K3|]].
    + destruct (tok_eqb t' TEnd) eqn:E; [apply tok_eqb_eq in E; subst t'; change (weight TEnd) with 0; lia|].
      assert (N: t' <> TEnd) by (intros K; rewrite K in E; discriminate). specialize (K2 N). pose proof (weight_range t'). lia.
    + right. exact K4.
Qed.
(** what comes after the first token *)
Lemma after_first n single q' c : rel T q_at false q' -> Sq T q' c ->
  wpf (Ep T) (Z.of_nat n + 1 < BX 90) (run n (FParse TEnd single)) c (fun _ c' => 0 <= c_bol c').
Proof.
  intros HR Hs. pose proof (@respects_run T n) as Hrec. revert Hrec. generalize (run n). intros rec Hrec. pose proof q_ok as O0. assert (R0: 5 <= 90) by lia.
  unfold BX. yy. match goal with H : Sq T _ ?c |- 0 <= c_bol ?c => apply H end.
Qed.
Lemma after_text n text q' c : rel T q_at false q' -> Sq T q' c ->
  wpf (Ep T) (Z.of_nat n + 1 < BX 90)
   (cur <- curTok ;;
    if tok_eqb cur TEnd then
      p <- span 0 ;;
      asEppLambda (ERenderString p text)
    else if tok_eqb cur TPipe then
      match text with
      | _ :: _ => issue PARSE_ILLEGAL_EPP_PARAMETERS
      | [] =>
        params <- lambdaParameterList (run n) ;;
        run n FNextToken ;;
        b <- run n (FParse TEnd false) ;;
        p <- span 0 ;;
        asEppLambda (eppLambda params b p)
      end
    else
      ts <- tokStart ;;
      run n (FEppLoop (match text with [] => [] | _ => [ERenderString (mkpos 0 ts) text] end))) c (fun _ c' => 0 <= c_bol c').
Proof.
  intros HR Hs. unfold asEppLambda. pose proof (@respects_run T n) as Hrec. revert Hrec. generalize (run n). intros rec Hrec. pose proof q_ok as O0. assert (R0: 5 <= 90) by lia.
  unfold BX. yy.
  - apply Hs.
  - unfold lambdaParameterList. yy. all: match goal with H : Sq T _ ?c |- 0 <= c_bol ?c => apply H end.
  - apply HR.
  - match goal with H : Sq T _ c' |- _ => apply H end.
Qed.
Lemma text_part n q c (Q : str -> ctx -> Prop) : rel T q_at false q -> Sq T q c ->
  (forall a q' c', rel T q_at false q' -> Sq T q' c' -> Q a c') ->
  wpf (Ep T) (Z.of_nat n + 1 < BX 90) (if tok_eqb (qt q) TRenderString then s <- tokenString ;; run n FNextToken ;; ret s else ret []) c Q.
Proof.
  intros HR Hs HQ. pose proof (@respects_run T n) as Hrec. revert Hrec. generalize (run n). intros rec Hrec. pose proof q_ok as O0. assert (R0: 5 <= 90) by lia.
  unfold BX. yy. all: (eapply HQ; [|eassumption]; assumption).
Qed.
End At.

(** ** parseTop *)
Lemma ok_start p : 0 <= p <= LT T + 1 -> at_ok p (-1).
Proof. intros H. pose proof (@LT_nonneg T). unfold at_ok. lia. Qed.


Lemma BX_le p k k' : 0 <= p <= L + 1 -> BX p (-1) k <= BX 0 (-1) k' + k - k'.
Proof.
  intros H1. pose proof (@LT_nonneg T). assert (0 <= 0 <= L + 1) as H0 by lia.
  rewrite (@BX_eq p (-1)), (@BX_eq 0 (-1)).
  pose proof (@ky_le T 0 p (-1)) as K. assert (ky T 0 (-1) <= ky T p (-1)) by (apply K; lia). lia.
Qed.
Lemma token_ok n p t s b c (Q : unit -> ctx -> Prop) : S_ T b p (-1) t s c -> 0 <= p <= L + 1 ->
  (forall q' c', rel T (q_at p (-1)) false q' -> Sq T q' c' -> Q tt c') ->
  wpf (Ep T) (Z.of_nat n + 1 < BX 0 (-1) 90) (run n FNextToken) c Q.
Proof.
  intros Hs Hp HQ. eapply wpf_bound with (B := Z.of_nat n < BX p (-1) 50); [|intros; pose proof (@BX_le p 50 90 Hp); lia].
  eapply first_token; [apply ok_start; exact Hp|exact Hs|]. intros q' c' H1 _ H2. eapply HQ; eauto.
Qed.
Lemma top_ok n single t s c : S_ T false 0 (-1) t s c ->
  wpf (Ep T) (Z.of_nat n + 1 < BX 0 (-1) 90) (parseTop (run n) single) c (fun _ c' => 0 <= c_bol c').
Proof.
  intros Hs. pose proof (@LT_nonneg T) as HL. unfold parseTop. apply wpf_bind. x0. x_case.
  - assert (UP: forall p A (m : M A) c Q, 0 <= p <= L + 1 -> wpf (Ep T) (Z.of_nat n + 1 < BX p (-1) 90) m c Q -> wpf (Ep T) (Z.of_nat n + 1 < BX 0 (-1) 90) m c Q).
    { intros p A m c1 Q Hp H. eapply wpf_bound; [exact H|]. pose proof (@BX_le p 90 90 Hp). lia. }
    apply wpf_bind. unfold consumeEPP. apply wpf_bind. eapply r_epp_loop; [x_s|lia|]. intros r t' p' Hp' Ht. clear c Hs t. intros c Hs.
    cbv beta. destruct r.
    + eapply token_ok; [exact Hs|exact Hp'|]. clear c Hs Ht s t'. intros q c HR Hs.
      apply wpf_bind. x0. apply wpf_bind. eapply UP; [exact Hp'|]. eapply text_part; [apply ok_start; exact Hp'|exact HR|exact Hs|].
      clear q c HR Hs. intros text q c HR Hs. cbv beta. eapply UP; [exact Hp'|]. eapply after_text; eauto. apply ok_start; auto.
    + apply wpf_ret. apply wpf_bind. x0. apply wpf_bind. destruct (Ht eq_refl) as [-> | ->].
      * change (tok_eqb TEnd TRenderString) with false. cbv iota. apply wpf_ret. apply wpf_bind. x0. change (tok_eqb TEnd TEnd) with true. cbv iota.
        unfold asEppLambda. x. apply Hs.
      * change (tok_eqb TRenderString TRenderString) with true. cbv iota. apply wpf_bind. eapply r_tokenString; [x_s|]. intros text. cbv beta. apply wpf_bind. 
        eapply token_ok; [exact Hs|exact Hp'|]. clear c Hs Ht s. intros q c HR Hs. apply wpf_ret. cbv beta.
        eapply UP; [exact Hp'|]. eapply after_text; eauto. apply ok_start; auto.
  - apply wpf_bind. eapply token_ok; [exact Hs|lia|]. clear c Hs. intros q c HR Hs. cbv beta.
    eapply after_first; eauto. apply ok_start; lia.
Qed.
End Top.

(** ** The states between calls *)
Lemma run_ok fuel c source single : 0 <= c_bol c ->
  match parse_run fuel c source single with
  | Ok _ c' => 0 <= c_bol c'
  | Err e c' => Ep source e c'
  | Fuel => Z.of_nat fuel + 1 < BX source 0 (-1) 90
  end.
Proof.
  intros H. unfold parse_run.
  pose proof (@top_ok source fuel single (c_tok c) (c_tsp c) (start_ctx source c)) as K. unfold wpf in K.
  destruct (parseTop (run fuel) single (start_ctx source c)); apply K; (split; [reflexivity|]; cbn; repeat split; try assumption; discriminate).
Qed.
Lemma state_bol o c : parser_state o c -> 0 <= c_bol c.
Proof.
  induction 1 as [|c fuel source single e c' _ IH E|c fuel source single e c' _ IH E].
  - cbn. lia.
  - pose proof (@run_ok fuel c source single IH) as K. rewrite E in K. exact K.
  - pose proof (@run_ok fuel c source single IH) as K. rewrite E in K. apply K.
Qed.

(** ** Lines and columns *)
Lemma index_bounds n : forall i s l, line_index n i s = inl l -> Forall (fun y => i < y <= i + zlen s) l /\ zlen l <= newlines s /\ StronglySorted Z.lt l.
Proof.
  induction n as [|n IH]; intros i s l; cbn [line_index].
  - intros [= <-]. split; [constructor|]. split; [apply zlen_nonneg|constructor].
  - destruct s as [|y s]; [intros [= <-]; split; [constructor|split; [vm_compute; discriminate|constructor]]|].
    rewrite newlines_cons. rewrite zlen_cons. pose proof (zlen_nonneg s) as Z1. assert (0 <= newlines s) by (apply zlen_nonneg). destruct (y =? 0); [intros [= <-]; split; [constructor|split; [rewrite zlen_nil; destruct (y =? 10); lia|constructor]]|]. destruct (y <? 128) eqn:Y.
    + destruct (line_index n (i + 1) s) as [l'|] eqn:E; [|discriminate]. intros [= <-]. apply IH in E as (E1 & E2 & E3).
      assert (Forall (fun y => i < y <= i + (1 + zlen s)) l') by (eapply Forall_impl; [|exact E1]; cbv beta; lia).
      destruct (y =? 10); [|split; [exact H0|split; [lia|exact E3]]]. split; [constructor; [lia|exact H0]|split; [rewrite zlen_cons; lia|]].
      constructor; [exact E3|]. eapply Forall_impl; [|exact E1]. cbv beta. lia.
    + destruct (decode_rune (y :: s)) as [r w] eqn:D. destruct (r =? rune_error); [discriminate|]. intros E. apply IH in E as (E1 & E2 & E3).
      destruct (@decode_width (y :: s) r w D ltac:(discriminate)) as [W1 W2].
      assert (Z2: zlen (skipn (Z.to_nat w) (y :: s)) = 1 + zlen s - w).
      { unfold zlen in *. rewrite skipn_length. cbn [List.length] in *. unfold str in *. lia. }
      split; [eapply Forall_impl; [|exact E1]; cbv beta; intros; unfold str in *; lia|]. split; [|exact E3].
      enough (newlines (skipn (Z.to_nat w) (y :: s)) <= newlines (y :: s)) by (rewrite newlines_cons in H0; lia).
      rewrite <- (firstn_skipn (Z.to_nat w) (y :: s)) at 2. unfold newlines. rewrite filter_app, zlen_app. pose proof (zlen_nonneg (filter (Z.eqb 10) (firstn (Z.to_nat w) (y :: s)))). lia.
Qed.
Lemma index_facts text li : getLineIndex text = inl li -> exists l, li = 0 :: l /\ Forall (fun y => 0 < y <= zlen text) l /\ zlen l <= newlines text /\ StronglySorted Z.lt li.
Proof.
  unfold getLineIndex. destruct (line_index _ _ _) as [l|] eqn:E; [|discriminate]. intros [= <-]. apply index_bounds in E as (E1 & E2 & E3). exists l. split; [reflexivity|]. split; [exact E1|]. split; [exact E2|].
  constructor; [exact E3|]. eapply Forall_impl; [|exact E1]. cbv beta. lia.
Qed.
Lemma filter_len A (f : A -> bool) l : zlen (filter f l) <= zlen l.
Proof. unfold zlen. induction l; cbn; [lia|]. destruct (f a); cbn [List.length]; lia. Qed.
Lemma nth_below x : forall l, StronglySorted Z.lt l -> 1 <= searchInts l x -> nth (Z.to_nat (searchInts l x - 1)) l 0 < x.
Proof.
  unfold searchInts. induction l as [|y l IH]; intros S K; [cbn in K; lia|]. apply StronglySorted_inv in S as [S1 S2]. cbn [filter] in *.
  destruct (Z.ltb_spec y x) as [Y|Y].
  - rewrite zlen_cons in *. replace (1 + zlen (filter (fun y0 => y0 <? x) l) - 1) with (zlen (filter (fun y0 => y0 <? x) l)) by lia.
    pose proof (zlen_nonneg (filter (fun y0 => y0 <? x) l)) as N. destruct (Z.eq_dec (zlen (filter (fun y0 => y0 <? x) l)) 0) as [->|NZ]; [exact Y|].
    specialize (IH S1 ltac:(lia)). replace (Z.to_nat (zlen (filter (fun y0 => y0 <? x) l))) with (Datatypes.S (Z.to_nat (zlen (filter (fun y0 => y0 <? x) l) - 1))) by lia. exact IH.
  - exfalso. enough (filter (fun y0 => y0 <? x) l = []) as E by (rewrite E in K; cbn in K; lia).
    clear -S2 Y. induction l as [|z l IH]; [reflexivity|]. apply Forall_cons_iff in S2 as [H1 H2]. cbn. destruct (Z.ltb_spec z x); [lia|]. auto.
Qed.
Lemma runes_len n : forall s, zlen (runes_fuel n s) <= zlen s.
Proof.
  induction n as [|n IH]; intros s; cbn [runes_fuel]; [apply zlen_nonneg|]. destruct s as [|y s]; [apply zlen_nonneg|].
  destruct (decode_rune (y :: s)) as [r w] eqn:D. destruct (@decode_width (y :: s) r w D ltac:(discriminate)) as [W1 W2].
  rewrite zlen_cons. specialize (IH (skipn (Z.to_nat w) (y :: s))).
  assert (Z2: zlen (skipn (Z.to_nat w) (y :: s)) = zlen (y :: s) - w).
  { unfold zlen in *. rewrite skipn_length. cbn [List.length] in *. unfold str in *. lia. }
  unfold str in *. lia.
Qed.
Lemma located text off l k : lineForOffset text off = inl l -> posOnLine text off = inl k ->
  1 <= l <= 1 + newlines text /\ 1 <= k <= zlen text + 1.
Proof.
  unfold lineForOffset, posOnLine. destruct (getLineIndex text) as [li|] eqn:E; [|discriminate]. apply index_facts in E as (l' & -> & F & N & S).
  intros [= <-]. pose proof (zlen_nonneg text) as Z0. pose proof (@filter_len Z (fun y => y <? off + 1) (0 :: l')) as Z1. rewrite zlen_cons in Z1. fold (searchInts (0 :: l') (off + 1)) in Z1.
  destruct (Z.ltb_spec (searchInts (0 :: l') (off + 1)) 1); [discriminate|]. cbv zeta. destruct (_ =? _); [intros [= <-]; lia|].
  set (o := if zlen text <? off then zlen text else off). clearbody o. match goal with |- (if ?b then _ else _) = _ -> _ => destruct b end; [discriminate|]. intros [= <-]. split; [lia|].
  pose proof (zlen_nonneg (runes (slice text (nth (Z.to_nat (searchInts (0 :: l') (off + 1) - 1)) (0 :: l') 0) o))).
  match goal with |- 1 <= zlen (runes ?s) + 1 <= _ => assert (zlen (runes s) <= zlen s) as R by apply runes_len; assert (0 <= zlen (runes s)) as R2 by apply zlen_nonneg; assert (zlen s <= zlen text) as R'; [|clear - R R' R2; set (x := zlen (runes s)) in *; set (y := zlen s) in *; clearbody x y; lia] end.
  unfold slice, zlen. rewrite firstn_length, skipn_length. lia.
Qed.
Lemma can_locate text off li : getLineIndex text = inl li -> 0 <= off -> exists l k, lineForOffset text off = inl l /\ posOnLine text off = inl k.
Proof.
  intros E Ho. pose proof (index_facts E) as (l' & -> & F & N & S). unfold lineForOffset, posOnLine. rewrite E.
  assert (1 <= searchInts (0 :: l') (off + 1)) as G.
  { unfold searchInts. cbn [filter]. destruct (Z.ltb_spec 0 (off + 1)); [|lia]. rewrite zlen_cons. pose proof (zlen_nonneg (filter (fun y => y <? off + 1) l')). lia. }
  pose proof (@nth_below (off + 1) (0 :: l') S G) as B. eexists.
  destruct (Z.ltb_spec (searchInts (0 :: l') (off + 1)) 1); [lia|]. cbv zeta.
  set (a := nth (Z.to_nat (searchInts (0 :: l') (off + 1) - 1)) (0 :: l') 0) in *.
  assert (0 <= a <= zlen text) as A.
  { destruct (nth_in_or_default (Z.to_nat (searchInts (0 :: l') (off + 1) - 1)) (0 :: l') 0) as [I|I]; fold a in I; [|pose proof (zlen_nonneg text); lia].
    destruct I as [<-|I]; [pose proof (zlen_nonneg text); lia|]. rewrite Forall_forall in F. specialize (F a I). lia. }
  destruct (off =? a); [eauto|]. destruct (Z.ltb_spec (zlen text) off).
  - destruct (Z.ltb_spec (zlen text) a); [lia|]. eauto.
  - destruct (Z.ltb_spec off a); [lia|]. eauto.
Qed.
Lemma BX_top T : BX T 0 (-1) 90 <= 300 * ((zlen T + 3) * (zlen T + 3)).
Proof.
  pose proof (@LT_nonneg T) as HL. rewrite BX_eq. pose proof (@ky_range T 0 (-1) ltac:(lia)) as K. unfold AM, KM in *. unfold LT in *. nia.
Qed.
