(** * GrammarUse: sources of one token *)
From Verif Require Import Base Float Tokens Ast Ctx Lexer Parser Api SpecLex SpecGrammar SpecManifest Utf8Facts SpliceProof GrammarTop GrammarSpace.
From Coq Require Import Lia ZifyBool.

Lemma rune_ok_ascii r : 0 < r < 128 -> rune_ok r.
Proof. intros H. unfold rune_ok, valid_rune, in_range. split; [|lia]. lia. Qed.
Lemma sq_in_single_quotes rs : Forall rune_ok rs -> sq (in_single_quotes rs) rs.
Proof.
  induction 1 as [|r rs H _ IH]; [constructor|]. unfold in_single_quotes. cbn [flat_map]. fold (in_single_quotes rs).
  destruct (Z.eqb_spec r "'"%ch) as [->|N1]; [apply sq_quote; exact IH|]. destruct (Z.eqb_spec r "\"%ch) as [->|N2]; [apply sq_backslash; exact IH|].
  cbn [orb app]. apply sq_plain; auto.
Qed.
Lemma hex_of_char d : 0 <= d <= 15 -> hex_char d (hex_of d).
Proof. intros H. unfold hex_char, hex_of. destruct (Z.ltb_spec d 10); lia. Qed.
Lemma hex_digits_value r : 0 <= r < 16 ^ 6 -> value 16 (hex_digits r) = r.
Proof.
  intros H. unfold value, hex_digits. cbn [map fold_left]. change (16 ^ 0) with 1. change (16 ^ 1) with 16. change (16 ^ 2) with 256. change (16 ^ 3) with 4096. change (16 ^ 4) with 65536. change (16 ^ 5) with 1048576. change (16 ^ 6) with 16777216 in H.
  Z.to_euclidean_division_equations. lia.
Qed.
Lemma valid_rune_bound r : valid_rune r = true -> 0 <= r < 16 ^ 6.
Proof. unfold valid_rune, in_range. change (16 ^ 6) with 16777216. lia. Qed.
Lemma dq_in_double_quotes hex rs : Forall (fun r => valid_rune r = true) rs -> dq hex (in_double_quotes rs) rs.
Proof.
  induction 1 as [|r rs H _ IH]; [constructor|]. unfold in_double_quotes. cbn [flat_map]. fold (in_double_quotes rs).
  destruct (Z.eqb_spec r """"%ch) as [->|N1]; [apply dq_same; [vm_compute; auto|exact IH]|].
  destruct (Z.eqb_spec r "\"%ch) as [->|N2]; [apply dq_same; [vm_compute; auto|exact IH]|].
  destruct (Z.eqb_spec r "$"%ch) as [->|N3]; [apply dq_same; [vm_compute; auto|exact IH]|]. cbn [orb].
  destruct (Z.eqb_spec r 10) as [->|N4]; [apply dq_control; [vm_compute; auto|exact IH]|].
  destruct (Z.eqb_spec r 13) as [->|N5]; [apply dq_control; [vm_compute; auto|exact IH]|].
  destruct (Z.eqb_spec r 9) as [->|N6]; [apply dq_control; [vm_compute; auto|exact IH]|].
  destruct ((r <? 32) || (r =? 65533)) eqn:E.
  - pose proof (valid_rune_bound H) as HB. pose proof (hex_digits_value HB) as HV.
    replace ((["\"%ch; "u"%ch; "{"%ch] ++ map hex_of (hex_digits r) ++ ["}"%ch]) ++ in_double_quotes rs)
      with ("\"%ch :: "u"%ch :: "{"%ch :: map hex_of (hex_digits r) ++ "}"%ch :: in_double_quotes rs) by (cbn [app]; rewrite <- app_assoc; reflexivity).
    rewrite <- HV at 2. apply dq_u; [|cbn; lia|rewrite HV; exact H|exact IH].
    assert (HD : Forall (fun d => 0 <= d <= 15) (hex_digits r)). { unfold hex_digits. cbn [map]. repeat apply Forall_cons; try apply Forall_nil; match goal with |- context [?a mod 16] => pose proof (Z.mod_pos_bound a 16 eq_refl); lia end. }
    clear HV. induction HD as [|d l Hd _ IHd]; constructor; [now apply hex_of_char|exact IHd].
  - cbn [app]. apply dq_plain; auto. unfold rune_ok. split; [exact H|]. lia.
Qed.

(** ** Decimal digits *)
Lemma digits_of_spec f n : 0 <= n < 10 ^ Z.of_nat f -> (0 < f)%nat -> value 10 (digits_of f n) = n /\ Forall (fun d => 0 <= d <= 9) (digits_of f n) /\ digits_of f n <> [] /\ (0 < n -> 0 < hd 0 (digits_of f n)).
Proof.
  revert n. induction f as [|f IH]; intros n Hn Hf; [lia|]. cbn [digits_of]. destruct (Z.ltb_spec n 10) as [H|H].
  - unfold value. cbn. repeat split; [repeat constructor; lia|discriminate|lia].
  - rewrite Nat2Z.inj_succ, Z.pow_succ_r in Hn by lia. assert (H10 : 0 <= n / 10 < 10 ^ Z.of_nat f) by (split; [apply Z.div_pos; lia|apply Z.div_lt_upper_bound; lia]).
    assert (Hf' : (0 < f)%nat). { destruct f; [cbn in H10|lia]. pose proof (Z.div_le_lower_bound n 10 1 ltac:(lia) ltac:(lia)). lia. }
    destruct (IH _ H10 Hf') as (IH1 & IH2 & IH3 & IH4). pose proof (Z.mod_pos_bound n 10 eq_refl). repeat split.
    + unfold value. rewrite fold_left_app. fold (value 10 (digits_of f (n / 10))). rewrite IH1. cbn. pose proof (Z.div_mod n 10). lia.
    + apply Forall_app. split; [exact IH2|repeat constructor; lia].
    + destruct (digits_of f (n / 10)); discriminate.
    + intros _. destruct (digits_of f (n / 10)) eqn:E; [congruence|]. cbn [app hd] in *. apply IH4. apply Z.div_str_pos. lia.
Qed.
Lemma decimal_token o n : 0 <= n < 2 ^ 63 -> token_text o TInteger (VInt n) 10 (decimal_text n).
Proof.
  intros H. destruct (Z.eq_dec n 0) as [->|N]; [exact (tt_zero o)|].
  destruct (@digits_of_spec 20 n) as (H1 & H2 & H3 & H4); [change (10 ^ Z.of_nat 20) with 100000000000000000000; lia|lia|]. rewrite <- H1 at 1. apply tt_decimal; [apply H4; lia|exact H2|rewrite H1; lia].
Qed.
(** ** From atoms to expressions and statements *)
Lemma atom_op wf ns ts e n : D wf ns Atom ts [e] -> invoke e = e -> (n <= 9)%nat -> D wf ns (Op n) ts [e].
Proof.
  intros H E. induction n as [|n IH]; intros Hn; [|apply o_up; [lia|apply IH; lia]].
  apply o_unary, u_primary. rewrite <- E. apply p_chain, ch_atom. exact H.
Qed.
Lemma op_rel wf ns ts e : D wf ns (Op 9) ts [e] -> (wf = true -> ~ style_name e) -> D wf ns Rel ts [e].
Proof. intros H HN. apply rel_assign, as_resource, r_expression; [|exact HN]. apply x_select, s_op. exact H. Qed.
Lemma up_ops wf ns ts e n m : D wf ns (Op n) ts [e] -> (n <= m)%nat -> (m <= 9)%nat -> D wf ns (Op m) ts [e].
Proof. intros H Hn. induction Hn as [|m Hn IH]; intros Hm; [exact H|]. apply o_up; [lia|]. apply IH. lia. Qed.
(** statements that stand for themselves *)
Definition simple (e : expr) : Prop := ~ comma_list e /\ used false e = e.
Lemma simple_statement e : simple e -> statements [e] [e].
Proof.
  intros [H1 H2]. assert (X : statement_name e \/ ~ statement_name e).
  { unfold statement_name. destruct e; try (right; intros (m0 & E & _); discriminate).
    destruct (in_dec (list_eq_dec Z.eq_dec) name (map lit statement_functions)) as [I|I].
    - destruct p as [a b]. destruct (Z.eq_dec a 0) as [->|N]; [destruct (Z.eq_dec b 0) as [->|N]|].
      + left. eauto.
      + right. intros (m & E & _). congruence.
      + right. intros (m & E & _). congruence.
    - right. intros (m & E & HI). injection E as _ ->. contradiction. }
  destruct X as [X|X]; [apply sts_name; exact X|]. rewrite <- H2 at 2. apply sts_other; [exact X|exact H1|constructor].
Qed.
(** what ends a source cannot continue a token *)
Lemma gap_head brk g : gap brk g -> In (first_byte g) [0; 32; 9; 13; 10; 35; 47].
Proof. intros []; cbn [first_byte]; cbn; auto 10. destruct H as [-> |[-> | ->]]; auto 10. Qed.
Lemma gap_nocolon brk g s : gap brk g -> ~ double_colon s -> first_byte s <> ":"%ch -> ~ double_colon (g ++ s).
Proof. intros H Hs Hf (s' & E). destruct H; cbn [app] in E; try (injection E as E; subst; try (destruct H as [|[|]]; discriminate); discriminate). apply Hs. exists s'. exact E. Qed.
Lemma end_gap_head g : end_gap g -> In (first_byte g) [0; 32; 9; 13; 10; 35; 47].
Proof. intros [brk g' H|brk g' rs H _ _]; [exact (gap_head H)|]. destruct g'; [cbn; auto 10|exact (gap_head H)]. Qed.
Lemma quiet_end t txt g : end_gap g -> t <> TDivide -> ~ clash t txt g.
Proof.
  intros H Ht. assert (Hd : ~ double_colon g). { intros (s & ->). apply end_gap_head in H. cbn in H. intuition discriminate. }
  apply end_gap_head in H. unfold clash, one_of, wordchar, lower, upper, digit. remember (first_byte g) as b. clear Heqb.
  destruct t; try (intros []; fail); try (destruct (isDecimalDigit _)); try congruence; cbn in *;
  repeat (destruct H as [<-|H]; [intuition (try discriminate; try lia; auto)|]); destruct H.
Qed.
Section One.
Variable o : opts.
Hypothesis Hplain : manifests o.
Lemma both_modes n ts k e : stream o (top o n) None None (ts ++ [k]) -> k_tok k = TEnd -> D (o_workflow o) [] Rel ts [e] -> simple e -> forall single, parses o (render (ts ++ [k])) single (whole single e).
Proof.
  intros HS Hk HD Hs [|].
  - apply expression_parses; [exact Hplain|]. econstructor; eauto.
  - apply manifest_parses; [exact Hplain|]. econstructor; eauto; [|apply simple_statement; exact Hs]. rewrite <- (app_nil_r ts). apply sts_next; [apply st_rel; exact HD|constructor|exact Logic.I].
Qed.
Lemma one_written n g1 brk g2 t v r txt e single : gap brk g1 -> end_gap g2 -> written o (top o n) t v r txt -> situated (o_epp o) None None brk (match g1 with [] => true | _ => false end) 0 t -> t <> TDivide -> t <> TEnd ->
  D (o_workflow o) [] Atom [mktk g1 brk t v r txt] [e] -> invoke e = e -> simple e -> (o_workflow o = true -> ~ style_name e) -> parses o (g1 ++ txt ++ g2) single (whole single e).
Proof.
  intros H1 H2 HT HS HD HE Ha Hi Hs HN. replace (g1 ++ txt ++ g2) with (render ([mktk g1 brk t v r txt] ++ [mktk g2 false TEnd VNil 0 []])) by (unfold render; cbn [app flat_map k_gap k_txt]; rewrite !app_nil_r, <- app_assoc; reflexivity).
  apply (@both_modes n); [|reflexivity|apply op_rel; [apply atom_op; auto|exact HN]|exact Hs].
  cbn [app stream k_tok k_val k_radix k_txt k_gap k_brk]. unfold render. cbn [flat_map k_gap k_txt app]. rewrite !app_nil_r.
  split; [exact HT|]. split; [left; exact H1|]. split; [exact HS|]. split; [apply quiet_end; auto|]. split; [intros X; rewrite X in HT; destruct (text_only HT); destruct Hplain; congruence|]. split; [intros X; congruence|].
  split; [apply wr_token; [constructor|reflexivity]|]. split; [right; auto|]. split; [exact Logic.I|]. split; [intros []|]. split; [discriminate|]. auto.
Qed.
Lemma one_token g1 brk g2 t v r txt e single : gap brk g1 -> end_gap g2 -> token_text o t v r txt -> situated (o_epp o) None None brk (match g1 with [] => true | _ => false end) 0 t -> t <> TDivide -> t <> TEnd ->
  D (o_workflow o) [] Atom [mktk g1 brk t v r txt] [e] -> invoke e = e -> simple e -> (o_workflow o = true -> ~ style_name e) -> parses o (g1 ++ txt ++ g2) single (whole single e).
Proof. intros H1 H2 HT. apply (@one_written 0); auto. apply wr_token; auto. Qed.
End One.
Ltac no_name := solve [let X := fresh in intros _ (? & ? & _ & X); discriminate X
  |let X := fresh in let HI := fresh in intros _ (? & ? & HI & X); injection X as X; cbn [In step_styles] in HI; repeat (destruct HI as [HI|HI]; [injection HI as <- _; discriminate X|]); destruct HI].
