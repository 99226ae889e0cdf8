(** * GrammarOps: operator expressions are parsed as they were written *)
From Verif Require Import Base Float Tokens Ast Ctx Lexer Parser Api SpecLex SpecGrammar SpecManifest SpecOps Utf8Facts SpliceProof GrammarTop GrammarSpace GrammarUse.
From Coq Require Import Lia ZifyBool.

(** the token of an operator *)
Definition op_tok (w : string) : tok :=
  match find (fun p => String.eqb (snd p) w) (app punctuation [(TIn, "in"); (TAnd, "and"); (TOr, "or")]%string) with Some (t, _) => t | None => TEnd end.
Definition op_val (w : string) (k : bkind) : tval := match k with KIn | KAnd | KOr => VStr (lit w) | _ => VNil end.
(** the gap before a token: nothing before the first *)
Definition mk (first : bool) (t : tok) (v : tval) (r : Z) (x : str) : tk := mktk (if first then [] else [32]) false t v r x.
Definition wrap (needed first : bool) (f : bool -> list tk) : list tk :=
  if needed then mk first (if first then TWslp else TLp) VNil 0 (lit "(") :: f false ++ [mk false TRp VNil 0 (lit ")")] else f first.
Fixpoint toks (t : optree) (first : bool) : list tk :=
  match t with
  | OVar w => [mk first TVariable (VStr w) 0 ("$"%ch :: w)]
  | OInt n => [mk first TInteger (VInt n) 10 (decimal_text n)]
  | OMinus a => mk first TSubtract VNil 0 (lit "-") :: wrap (negb (signable a)) false (toks a)
  | ONot a => mk first TNot VNil 0 (lit "!") :: wrap (0 <? precedence a)%nat false (toks a)
  | OSplat a => mk first TMultiply VNil 0 (lit "*") :: wrap (0 <? precedence a)%nat false (toks a)
  | OBin n w k a b => wrap (n <? precedence a)%nat first (toks a) ++ mk false (op_tok w) (op_val w k) 0 (lit w) :: wrap (n - 1 <? precedence b)%nat false (toks b)
  end.
Definition shown_in (needed : bool) (e : expr) : expr := if needed then EUn z KParen e else e.
Fixpoint shown (t : optree) : expr :=
  match t with
  | OVar w => EUn z KVariable (EQName z w)
  | OInt n => EInt z 10 n
  | OMinus a => EUn z KUnaryMinus (shown_in (negb (signable a)) (shown a))
  | ONot a => EUn z KNot (shown_in (0 <? precedence a)%nat (shown a))
  | OSplat a => EUn z KUnfold (shown_in (0 <? precedence a)%nat (shown a))
  | OBin n w k a b => binary w k (shown_in (n <? precedence a)%nat (shown a)) (shown_in (n - 1 <? precedence b)%nat (shown b))
  end.
Lemma unparen_shown_in b e : unparen (shown_in b e) = unparen e.
Proof. now destruct b. Qed.
Lemma unparen_shown t : unparen (shown t) = tree_of t.
Proof. induction t; cbn [shown tree_of unparen]; unfold binary; cbn [unparen]; rewrite ?unparen_shown_in; congruence. Qed.
Lemma op_table n w k : In (n, w, k) binary_operators -> (1 <= n <= 9)%nat /\ In (n, op_tok w, k, match k with KIn | KAnd | KOr => ""%string | _ => w end) operators.
Proof.
  unfold binary_operators. cbn [In]. intros H. repeat (destruct H as [H|H]; [injection H as <- <- <-; split; [lia|vm_compute; tauto]|]). destruct H.
Qed.
Lemma op_token o n w k : In (n, w, k) binary_operators -> token_text o (op_tok w) (op_val w k) 0 (lit w).
Proof.
  unfold binary_operators. cbn [In]. intros H.
  repeat (destruct H as [H|H]; [injection H as <- <- <-; first [apply (tt_reserved o); vm_compute; tauto|apply (tt_punct o); vm_compute; tauto]|]). destruct H.
Qed.
Lemma op_quiet n w k txt s : In (n, w, k) binary_operators -> first_byte s = 32 -> ~ clash (op_tok w) txt s.
Proof.
  intros H E. assert (Hd : ~ double_colon s) by (intros (x & ->); discriminate E). unfold binary_operators in H. cbn [In] in H.
  repeat (destruct H as [H|H]; [injection H as <- <- <-; unfold clash, one_of, wordchar, lower, upper, digit; rewrite E; cbn; intuition (try discriminate; try lia; auto)|]). destruct H.
Qed.
Lemma op_ops n w k : In (n, w, k) binary_operators -> op_tok w <> TEnd /\ (forall epp prev2 prev brk gl lk, (exists p, prev = Some p /\ ends_operand p) -> situated epp prev2 prev brk gl lk (op_tok w)).
Proof.
  unfold binary_operators. cbn [In]. intros H.
  repeat (destruct H as [H|H]; [injection H as <- <- <-; split; [discriminate|intros ? ? ? ? ? ? HP; first [exact Logic.I|exact HP]]|]). destruct H.
Qed.

(** ** The derivation *)
Lemma shown_style t : ~ style_name (shown t).
Proof. intros (w & s & _ & H). destruct t; discriminate H. Qed.
Lemma d_paren wf ns b first f e : (forall fr, D wf ns Rel (f fr) [e]) -> b = true -> D wf ns Atom (wrap b first f) [shown_in b e].
Proof. intros H ->. unfold wrap, shown_in. apply a_paren; [|apply H|reflexivity]. destruct first; [right|left]; reflexivity. Qed.
Lemma d_wrap wf ns m n b first f e : ~ style_name e -> (forall fr, D wf ns (Op n) (f fr) [e]) -> (n <= 9)%nat -> (m <= 9)%nat -> b = (m <? n)%nat -> D wf ns (Op m) (wrap b first f) [shown_in b e].
Proof.
  intros HN H Hn Hm ->. destruct (Nat.ltb_spec m n) as [L|L].
  - apply atom_op; [|reflexivity|exact Hm]. apply d_paren; [|reflexivity]. intros fr. apply op_rel; [|auto]. eapply up_ops; [apply H|exact Hn|lia].
  - unfold wrap, shown_in. eapply up_ops; [apply H|exact L|exact Hm].
Qed.
Lemma legal_prec t : legal t -> (precedence t <= 9)%nat.
Proof. destruct t; cbn [legal precedence]; try lia. intros [H _]. apply op_table in H. lia. Qed.
Lemma op_named n w k : In (n, w, k) binary_operators -> match k with KIn | KAnd | KOr => False | _ => True end -> op_val w k = VNil.
Proof. intros _. destruct k; cbn; tauto. Qed.
Lemma toks_derive wf ns t : legal t -> forall first, D wf ns (Op (precedence t)) (toks t first) [shown t].
Proof.
  induction t as [w|n|a IH|a IH|a IH|n w k a IHa b IHb]; cbn [legal]; intros HL first.
  - cbn [toks shown precedence]. apply atom_op; [apply a_var; reflexivity|reflexivity|lia].
  - cbn [toks shown precedence]. apply atom_op; [|reflexivity|lia]. apply (@a_int wf ns (mk first TInteger (VInt n) 10 (decimal_text n)) n); reflexivity.
  - specialize (IH HL). cbn [toks shown precedence]. apply o_unary. destruct a; cbn [signable negb].
    1: { unfold wrap, shown_in. cbn [toks shown]. apply u_minus; [reflexivity| |cbn; unfold digit; lia]. apply (@p_chain wf ns _ (EUn z KVariable (EQName z w))). apply ch_atom, a_var; reflexivity. }
    all: unfold wrap; match goal with |- context [shown_in true ?e] => apply (@u_minus wf ns _ _ _ (shown_in true e)); [reflexivity| |cbn; unfold digit; lia];
      apply (@p_chain wf ns _ (shown_in true e)); apply ch_atom; match goal with |- context [toks ?a false] => apply (@d_paren wf ns true false (toks a) (shown a)); [|reflexivity] end;
      intros fr; apply op_rel; [eapply up_ops; [apply IH|apply legal_prec; exact HL|lia]|intros _; apply shown_style] end.
  - specialize (IH HL). cbn [toks shown precedence]. apply o_unary, u_not; [reflexivity|].
    pose proof (@d_wrap wf ns 0 (precedence a) (0 <? precedence a)%nat false (toks a) (shown a) (@shown_style a) IH (legal_prec HL) ltac:(lia) eq_refl) as X. inversion X; assumption.
  - specialize (IH HL). cbn [toks shown precedence]. apply o_unary, u_splat; [reflexivity|].
    pose proof (@d_wrap wf ns 0 (precedence a) (0 <? precedence a)%nat false (toks a) (shown a) (@shown_style a) IH (legal_prec HL) ltac:(lia) eq_refl) as X. inversion X; assumption.
  - destruct HL as (HI & HA & HB). destruct (op_table HI) as [Hn HO]. destruct n as [|n]; [lia|]. cbn [toks shown precedence].
    assert (EQ : forall x y, binary w k x y = EBin z k (lit (match k with KIn | KAnd | KOr => ""%string | _ => w end)) x y) by (intros; destruct k; reflexivity). rewrite EQ.
    apply (@o_bin wf ns n (mk false (op_tok w) (op_val w k) 0 (lit w)) k (match k with KIn | KAnd | KOr => ""%string | _ => w end)); [exact HO| | |].
    + apply (@d_wrap wf ns (S n) (precedence a)); [apply shown_style|apply IHa; exact HA|apply legal_prec; exact HA|lia|reflexivity].
    + replace (S n - 1)%nat with n by lia. apply (@d_wrap wf ns n (precedence b)); [apply shown_style|apply IHb; exact HB|apply legal_prec; exact HB|lia|reflexivity].
    + intros E. cbn [mk k_val]. destruct k; try reflexivity; congruence.
Qed.
(** ** The tokens can be written so *)
Section Written.
Variable o : opts.
Definition operand_start (t : tok) : Prop := In t [TVariable; TInteger; TSubtract; TNot; TMultiply; TLp; TWslp].
(** [ok prev ts last]: each token of [ts] may stand where it does, if blanks follow; [last] is the last one *)
Fixpoint ok (prev : option tok) (ts : list tk) : Prop :=
  match ts with
  | [] => True
  | k :: rest => token_text o (k_tok k) (k_val k) (k_radix k) (k_txt k) /\ gap (k_brk k) (k_gap k) /\ (prev <> None -> k_gap k = [32])
    /\ (forall prev2 lk, situated (o_epp o) prev2 prev (k_brk k) (glued k) lk (k_tok k)) /\ (forall s, first_byte s = 32 \/ rest = [] /\ In (first_byte s) [0; 32; 9; 13; 10; 35; 47] -> ~ clash (k_tok k) (k_txt k) s) /\ k_tok k <> TEnd
    /\ ok (Some (k_tok k)) rest
  end.
Definition last_tok (prev : option tok) (ts : list tk) : option tok := fold_left (fun _ k => Some (k_tok k)) ts prev.
Lemma ok_app ts1 : forall prev ts2, ok prev ts1 -> ok (last_tok prev ts1) ts2 -> ok prev (ts1 ++ ts2).
Proof. induction ts1 as [|k ts1 IH]; intros prev ts2 H1 H2; [exact H2|]. cbn [app ok] in *. destruct H1 as (A & B & C & D & E & F & G). repeat (split; [assumption|]). split; [|split; [exact F|apply IH; [exact G|exact H2]]]. intros s [Hs|[Hs Hs2]]; [auto|]. apply E. right. destruct ts1; [auto|discriminate]. Qed.
Lemma last_app p ts1 ts2 : last_tok p (ts1 ++ ts2) = last_tok (last_tok p ts1) ts2.
Proof. apply fold_left_app. Qed.
Lemma ok_stream ts : forall prev2 prev kend, ok prev ts -> k_tok kend = TEnd -> k_val kend = VNil -> k_txt kend = [] -> end_gap (k_gap kend) -> stream o (top o 0) prev2 prev (ts ++ [kend]).
Proof.
  induction ts as [|k ts IH]; intros prev2 prev kend H K1 K2 K3 K4.
  - cbn [app stream]. rewrite K1, K2, K3. split; [apply wr_token; [constructor|reflexivity]|]. split; [right; auto|]. split; [exact Logic.I|]. split; [intros []|]. split; [discriminate|]. auto.
  - cbn [app stream ok] in *. destruct H as (A & B & C & E & F & G & H). split; [apply wr_token; [exact A|congruence]|]. split; [left; exact B|]. split; [apply E|]. split; [|split; [intros X; rewrite X in A; destruct (no_text A)|split; [congruence|apply IH; assumption]]].
    apply F. destruct ts as [|k2 ts].
    + cbn [app]. unfold render. cbn [flat_map]. rewrite K3, !app_nil_r. right. split; [reflexivity|]. apply end_gap_head. exact K4.
    + cbn [app ok] in *. destruct H as (_ & _ & C2 & _). unfold render. cbn [flat_map]. rewrite C2 by discriminate. left. reflexivity.
Qed.
Lemma quiet_blank t txt s : In (first_byte s) [0; 32; 9; 13; 10; 35; 47] -> t <> TDivide -> ~ clash t txt s.
Proof.
  intros H Ht. assert (Hd : ~ double_colon s). { intros (x & ->). cbn in H. intuition discriminate. }
  unfold clash, one_of, wordchar, lower, upper, digit. remember (first_byte s) as b. clear Heqb.
  destruct t; try (intros []; fail); try (destruct (isDecimalDigit _)); try congruence; cbn in *;
  repeat (destruct H as [<-|H]; [intuition (try discriminate; try lia; auto)|]); destruct H.
Qed.
Lemma mk_ok (first : bool) prev t v r x ts : token_text o t v r x -> (first = false -> prev <> None) -> (first = true -> prev = None) -> (forall prev2 lk, situated (o_epp o) prev2 prev false first lk t) -> t <> TDivide -> t <> TEnd ->
  ok (Some t) ts -> ok prev (mk first t v r x :: ts).
Proof.
  intros H1 H2 H3 H4 H5 H6 H7. cbn [ok mk k_tok k_val k_radix k_txt k_gap k_brk]. split; [exact H1|].
  split; [destruct first; repeat constructor|]. split; [intros X; destruct first; [now rewrite H3 in X|reflexivity]|]. split; [|split; [intros s Hs; apply quiet_blank; [cbn; intuition auto|assumption]|split; assumption]].
  intros p2 lk. unfold glued. cbn [k_gap mk]. destruct first; apply H4.
Qed.
Definition fits (first : bool) (prev : option tok) : Prop := if first then prev = None else prev <> None.
Definition good (f : bool -> list tk) : Prop := forall first prev, fits first prev -> ok prev (f first) /\ exists p, last_tok prev (f first) = Some p /\ ends_operand p.
Lemma good_wrap b f : good f -> forall first prev, fits first prev -> ok prev (wrap b first f) /\ exists p, last_tok prev (wrap b first f) = Some p /\ ends_operand p.
Proof.
  intros H first prev HF. destruct b; [|apply H; exact HF]. unfold wrap. set (t := if first then TWslp else TLp).
  destruct (H false (Some t)) as [H1 (p & H2 & H3)]; [discriminate|]. split.
  - apply mk_ok; [destruct first; apply (tt_punct o); vm_compute; tauto|intros ->; exact HF|intros ->; exact HF| |destruct first; discriminate|destruct first; discriminate|].
    + intros p2 lk. unfold t. destruct first; cbn [situated]; [right; exact HF|split; [reflexivity|exact HF]].
    + apply ok_app; [exact H1|]. rewrite H2. apply mk_ok; try (intros; discriminate); try (intros; exact Logic.I). apply (tt_punct o); vm_compute; tauto.
  - exists TRp. split; [|vm_compute; tauto]. unfold last_tok. cbn [fold_left]. rewrite fold_left_app. reflexivity.
Qed.
Lemma good_unary t w (a : optree) b : In (t, w) punctuation -> In t [TSubtract; TNot; TMultiply] -> good (toks a) ->
  good (fun first => mk first t VNil 0 (lit w) :: wrap b false (toks a)).
Proof.
  intros HI Ht Ha first prev HF. destruct (@good_wrap b (toks a) Ha false (Some t)) as [H1 H2]; [discriminate|]. split.
  - apply mk_ok; [apply (tt_punct o); exact HI|intros ->; exact HF|intros ->; exact HF| | | |exact H1]; cbn [In] in Ht; repeat (destruct Ht as [<-|Ht]; [first [discriminate|intros; exact Logic.I]|]); destruct Ht.
  - exact H2.
Qed.
Lemma toks_some t first : toks t first <> [].
Proof. destruct t; cbn [toks]; try discriminate. destruct (wrap (n <? precedence t1)%nat first (toks t1)); discriminate. Qed.
Lemma wrap_some b first t : wrap b first (toks t) <> [].
Proof. destruct b; [discriminate|apply toks_some]. Qed.
Lemma toks_good t : legal t -> good (toks t).
Proof.
  induction t as [w|n|a IH|a IH|a IH|n w k a IHa b IHb]; cbn [legal]; intros HL.
  - intros first prev HF. cbn [toks]. split; [|exists TVariable; split; [reflexivity|vm_compute; tauto]].
    apply mk_ok; [apply tt_var; exact HL|intros ->; exact HF|intros ->; exact HF|intros; exact Logic.I|discriminate|discriminate|exact Logic.I].
  - intros first prev HF. cbn [toks]. split; [|exists TInteger; split; [reflexivity|vm_compute; tauto]].
    apply mk_ok; [|intros ->; exact HF|intros ->; exact HF|intros; exact Logic.I|discriminate|discriminate|exact Logic.I].
    apply decimal_token. exact HL.
  - apply good_unary; [vm_compute; tauto|vm_compute; tauto|exact (IH HL)].
  - apply good_unary; [vm_compute; tauto|vm_compute; tauto|exact (IH HL)].
  - apply good_unary; [vm_compute; tauto|vm_compute; tauto|exact (IH HL)].
  - destruct HL as (HI & HA & HB). intros first prev HF. cbn [toks]. destruct (good_wrap (n <? precedence a)%nat (IHa HA) HF) as [A1 (p & A2 & A3)].
    destruct (@good_wrap (n - 1 <? precedence b)%nat _ (IHb HB) false (Some (op_tok w))) as [B1 (q & B2 & B3)]; [discriminate|]. split.
    + apply ok_app; [exact A1|]. rewrite A2. cbn [ok mk k_tok k_val k_radix k_txt k_gap k_brk]. destruct (op_ops HI) as [O1 O2]. split; [exact (op_token o HI)|]. split; [repeat constructor|].
      split; [reflexivity|]. split; [intros; apply O2; eauto|]. split; [|split; [exact O1|exact B1]].
      intros s [Hs|[Hs _]]; [exact (op_quiet HI Hs)|]. now apply wrap_some in Hs.
    + exists q. split; [|exact B3]. rewrite last_app, A2. exact B2.
Qed.
(** ** The text *)
Definition texts (ts : list tk) : list str := map k_txt ts.
Lemma texts_wrap b first f (t : optree) : (forall fr, texts (f fr) = words t) -> texts (wrap b first f) = parens b (words t).
Proof. intros H. destruct b; [|apply H]. unfold wrap, texts. cbn [map mk k_txt]. rewrite map_app. fold (texts (f false)). rewrite H. reflexivity. Qed.
Lemma texts_toks t : forall first, texts (toks t first) = words t.
Proof.
  induction t as [w|n|a IH|a IH|a IH|n w k a IHa b IHb]; intros first; cbn [toks words]; try reflexivity.
  1-3: unfold texts; cbn [map mk k_txt]; f_equal; apply texts_wrap; exact IH.
  unfold texts. rewrite map_app. cbn [map mk k_txt]. fold (texts (wrap (n <? precedence a)%nat first (toks a))). fold (texts (wrap (n - 1 <? precedence b)%nat false (toks b))).
  rewrite (texts_wrap _ _ IHa), (texts_wrap _ _ IHb). reflexivity.
Qed.
Lemma render_rest ts k : (forall x, In x ts -> k_gap x = [32]) -> k_txt k = [] -> render (ts ++ [k]) = flat_map (fun w => 32 :: w) (texts ts) ++ k_gap k.
Proof.
  intros H K. induction ts as [|x ts IH]; unfold render in *; cbn [app flat_map texts map].
  - rewrite K, !app_nil_r. reflexivity.
  - rewrite IH by (intros y Hy; apply H; now right). rewrite (H x) by now left. cbn [app]. unfold texts. rewrite <- app_assoc. reflexivity.
Qed.
Lemma join_flat w ws : join (lit " ") (w :: ws) = w ++ flat_map (fun w => 32 :: w) ws.
Proof. revert w. induction ws as [|v ws IH]; intros w; [symmetry; apply app_nil_r|]. change (join (lit " ") (w :: v :: ws)) with (w ++ lit " " ++ join (lit " ") (v :: ws)). rewrite IH. reflexivity. Qed.
Lemma ok_gaps ts : forall prev, ok prev ts -> prev <> None -> forall x, In x ts -> k_gap x = [32].
Proof.
  induction ts as [|k ts IH]; intros prev H HP x [].
  - subst. destruct H as (_ & _ & H & _). auto.
  - destruct H as (_ & _ & _ & _ & _ & _ & H). eapply IH; [exact H|discriminate|assumption].
Qed.
Lemma first_glued t : forall k ts, toks t true = k :: ts -> k_gap k = [].
Proof.
  assert (X : forall b f, (forall k ts, f true = k :: ts -> k_gap k = []) -> forall k ts, wrap b true f = k :: ts -> k_gap k = []).
  { intros [|] f H k ts E; [|eapply H; exact E]. unfold wrap in E. injection E as <- _. reflexivity. }
  induction t as [w|n|a IH|a IH|a IH|n w k a IHa b IHb]; intros k0 ts E; cbn [toks] in E; try (injection E as <- _; reflexivity).
  destruct (wrap (n <? precedence a)%nat true (toks a)) as [|k1 l] eqn:E1; cbn [app] in E; [injection E as <- _|injection E as <- _; eapply X; [exact IHa|exact E1]].
  now apply wrap_some in E1.
Qed.
Lemma words_toks t k : legal t -> k_txt k = [] -> render (toks t true ++ [k]) = written t ++ k_gap k.
Proof.
  intros HL K. destruct (toks_good HL (first := true) (prev := None) eq_refl) as [HO _]. unfold written. rewrite <- (texts_toks t true).
  destruct (toks t true) as [|k1 ts] eqn:E; [now apply toks_some in E|].
  cbn [app]. unfold render. cbn [flat_map]. fold (render (ts ++ [k])). rewrite (first_glued E). cbn [app]. destruct HO as (_ & _ & _ & _ & _ & _ & HO).
  rewrite (render_rest (ok_gaps HO ltac:(discriminate)) K). unfold texts. cbn [map]. rewrite join_flat, <- app_assoc. reflexivity.
Qed.
End Written.
Theorem written_parses o t g single : manifests o -> legal t -> end_gap g -> parses o (written t ++ g) single (whole single (shown t)).
Proof.
  intros HP HL HG. set (k := mktk g false TEnd VNil 0 []). change g with (k_gap k). rewrite <- (@words_toks o t k HL eq_refl).
  destruct (@toks_good o t HL true None eq_refl) as [HO _]. apply both_modes with (n := 0%nat); [exact HP|apply ok_stream; auto|reflexivity| |].
  - apply op_rel; [|intros _; apply shown_style]. eapply up_ops; [apply toks_derive; exact HL|apply legal_prec; exact HL|lia].
  - destruct t; cbn [shown]; unfold binary; split; try reflexivity; intros [].
Qed.
