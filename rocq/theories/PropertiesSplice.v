(** * PropertiesSplice: strings with interpolations (C49) *)
From Verif Require Import Base Float Tokens Ast Ctx Lexer Parser Api Conform SpecLex SpecGrammar SpecSplice SpecManifest SpecOps SpecTemplate.
From Verif Require Import Utf8Facts GrammarTop GrammarUse GrammarOps GrammarCalls SpliceProof.
From Coq Require Import Lia.

(** ** The definitions in them *)
Lemma variable_defs : forall e, defs (as_variable e) = defs e.
Proof.
  fix F 1. intros e. destruct e; try reflexivity.
  - cbn [as_variable]. destruct e; reflexivity.
  - cbn [as_variable]. destruct e; try reflexivity. destruct k; try reflexivity. cbn [defs]. rewrite (F e1). reflexivity.
Qed.
Lemma chars_defs rs : flat_map defs (chars rs) = [].
Proof. now destruct rs. Qed.
Lemma segments_defs o S es txt : segments o S es txt -> flat_map defs es = [].
Proof.
  induction 1 as [src rs H|src rs w radix es rest H H1 H2 H3 IH|src rs ks k e es rest H H1 H2 H3 H4 H5 H6 H7 IH].
  - apply chars_defs.
  - rewrite flat_map_app, chars_defs. exact IH.
  - rewrite flat_map_app, chars_defs. cbn [app flat_map defs]. rewrite variable_defs, H6. exact IH.
Qed.
(** ** Deeper nesting allows no less *)
Lemma written_more o b (S S' : expr -> str -> Prop) t v r x : (forall e s, S e s -> S' e s) -> SpecLex.written o (mkmode b S) t v r x -> SpecLex.written o (mkmode b S') t v r x.
Proof. intros H []; [apply wr_token|apply wr_string|apply wr_close|eapply wr_tagged|eapply wr_render|eapply wr_text|eapply wr_end]; cbn in *; eauto. Qed.
Lemma stream_deeper o b (S S' : expr -> str -> Prop) ks : (forall e s, S e s -> S' e s) -> forall p2 p, stream o (mkmode b S) p2 p ks -> stream o (mkmode b S') p2 p ks.
Proof.
  intros H. induction ks as [|k ks IH]; intros p2 p HS; [exact HS|]. cbn [stream embedded] in *. destruct HS as (A & B & C & E & F & F' & G). 
  split; [apply (written_more H A)|]. split; [exact B|]. split; [exact C|]. split; [exact E|]. split; [exact F|]. split; [exact F'|]. apply IH, G.
Qed.
Lemma segments_deeper o (S S' : expr -> str -> Prop) es txt : (forall e s, S e s -> S' e s) -> segments o S es txt -> segments o S' es txt.
Proof.
  intros H. induction 1; [apply b_end; assumption|eapply b_name; eassumption|eapply b_expr; try eassumption]. eapply stream_deeper; eassumption.
Qed.
Lemma splices_deeper o n e txt : splices o n e txt -> splices o (S n) e txt.
Proof.
  revert e txt. induction n as [|n IH]; intros e txt H; [destruct H|]. destruct H as [es rest H HI]. cbn [splices]. apply spliced_of; [|exact HI].
  eapply segments_deeper; [|exact H]. exact IH.
Qed.

(** ** C49 *)
(** A string of segments, by itself, is the list of its segments.  (Such strings
    may also stand wherever the grammar has a string: C47.) *)
Theorem C49_interpolated_strings : forall o n single brk before after e txt,
  manifests o -> gap brk before -> end_gap after -> splices o n e txt ->
  parses o (before ++ txt ++ after) single (whole single e).
Proof.
  intros o n single brk g1 g2 e txt HP H1 H2 HS.
  assert (X : exists es, e = EConcat z es /\ flat_map defs es = []). { destruct n; [destruct HS|]. destruct HS as [es rest HB _]. exists es. split; [reflexivity|exact (segments_defs HB)]. }
  destruct X as (es & -> & Hd).
  eapply (@one_written o HP n) with (t := TConcatenatedString) (v := VExpr (EConcat z es)) (r := 0); try exact H1; eauto; try discriminate; try exact Logic.I; try reflexivity.
  - apply wr_string. exact HS.
  - apply a_concat; [reflexivity|reflexivity|exact Hd].
  - split; [intros []|reflexivity].
  - no_name.
Qed.
(** a string has only one reading *)
Theorem C49_one_reading : forall o n1 n2 e1 e2 txt, manifests o -> splices o n1 e1 txt -> splices o n2 e2 txt -> e1 = e2.
Proof.
  intros o n1 n2 e1 e2 txt HP H1 H2. 
  pose proof (@C49_interpolated_strings o n1 true false [] [] e1 txt HP gap_nil (end_plain gap_nil) H1) as X1.
  pose proof (@C49_interpolated_strings o n2 true false [] [] e2 txt HP gap_nil (end_plain gap_nil) H2) as X2.
  exact (parses_unique X1 X2).
Qed.

(** ** Templates *)
Definition segment_shown (p : segment) : expr := match p with SOps t => EUn z KText (shown t) | _ => segment_tree p end.
Lemma shown_plain t : as_variable (shown t) = shown t /\ defs (shown t) = [].
Proof.
  assert (X : forall b e, defs (shown_in b e) = defs e) by (intros []; reflexivity).
  split; [destruct t; cbn [shown]; unfold binary; reflexivity|].
  induction t; cbn [shown]; unfold binary; cbn [defs]; rewrite ?X, ?IHt, ?IHt1, ?IHt2; reflexivity.
Qed.
Lemma toks_brk t : forall first, Forall (fun k => k_brk k = false) (toks t first).
Proof.
  assert (X : forall b f, (forall fr, Forall (fun k => k_brk k = false) (f fr)) -> forall first, Forall (fun k => k_brk k = false) (wrap b first f)).
  { intros [|] f H first; [|apply H]. unfold wrap. constructor; [reflexivity|]. apply Forall_app. split; [apply H|repeat constructor]. }
  induction t as [w|n|a IH|a IH|a IH|n w k a IHa b IHb]; intros first; cbn [toks]; try (repeat constructor; fail); try (constructor; [reflexivity|apply X; exact IH]).
  apply Forall_app. split; [apply X; exact IHa|]. constructor; [reflexivity|apply X; exact IHb].
Qed.
Lemma toks_head t : forall k, ~ In (k_tok (hd k (toks t false))) contextual.
Proof.
  assert (X : forall b (t : optree) k, ~ In (k_tok (hd k (toks t false))) contextual -> ~ In (k_tok (hd k (wrap b false (toks t)))) contextual).
  { intros [|] t0 k H; [|exact H]. unfold wrap. cbn. intuition discriminate. }
  induction t as [w|n|a IH|a IH|a IH|n w k a IHa b IHb]; intros k0; cbn [toks]; try (cbn; intuition discriminate).
  pose proof (@X (n <? precedence a)%nat a k0 (IHa k0)) as Y. destruct (wrap (n <? precedence a)%nat false (toks a)) as [|k1 l] eqn:E; [now apply wrap_some in E|exact Y].
Qed.
Lemma ok_embedded o S ts : forall prev2 prev kend s, prev <> None -> ok o prev ts -> Forall (fun k => k_brk k = false) ts -> kend = mktk [32] false TEnd VNil 0 ("}"%ch :: s) ->
  stream o (mkmode true S) prev2 prev (ts ++ [kend]).
Proof.
  induction ts as [|k ts IH]; intros prev2 prev kend s Hp H HB ->.
  - cbn [app stream embedded k_tok k_gap k_brk k_val k_txt k_radix]. split; [apply wr_close; reflexivity|]. split; [split; [repeat constructor|reflexivity]|]. split; [exact Logic.I|]. split; [intros []|]. split; [discriminate|]. auto.
  - cbn [app stream ok embedded] in *. inversion HB as [|? ? B1 B2]; subst. destruct H as (A & B & C & E & F & G & H). split; [apply wr_token; [exact A|congruence]|]. rewrite B1 in B. split; [auto|].
    split; [apply E|]. split; [|split; [intros X; rewrite X in A; destruct (no_text A)|split; [congruence|eapply IH; [discriminate|exact H|exact B2|reflexivity]]]].
    apply F. left. destruct ts as [|k2 ts]; [reflexivity|]. cbn [app ok] in *. destruct H as (_ & _ & C2 & _). unfold render. cbn [flat_map]. rewrite C2 by discriminate. reflexivity.
Qed.
Lemma render_gaps ts g s r v t : (forall x, In x ts -> k_gap x = [32]) -> render (ts ++ [mktk g false t v r s]) = flat_map (fun w => 32 :: w) (texts ts) ++ g ++ s.
Proof.
  intros H. induction ts as [|x ts IH]; unfold render in *; cbn [app flat_map texts map].
  - cbn. rewrite app_nil_r. reflexivity.
  - rewrite IH by (intros y Hy; apply H; now right). rewrite (H x) by now left. cbn [app]. unfold texts. rewrite <- app_assoc. reflexivity.
Qed.
Lemma ops_text (o : opts) t s : legal t -> render (toks t false ++ [mktk [32] false TEnd VNil 0 ("}"%ch :: s)]) = 32 :: SpecOps.written t ++ lit " }" ++ s.
Proof.
  intros HL. destruct (@toks_good o t HL false (Some TLc) ltac:(discriminate)) as [HO _].
  rewrite (render_gaps _ _ _ _ _ (ok_gaps HO ltac:(discriminate))). rewrite texts_toks. unfold SpecOps.written.
  destruct (words t) as [|w ws] eqn:E. { pose proof (texts_toks t false) as X. rewrite E in X. destruct (toks t false) eqn:E2; [now apply toks_some in E2|discriminate]. }
  rewrite join_flat. cbn [flat_map]. reflexivity.
Qed.
Section Templates.
Variables (o : opts) (S : expr -> str -> Prop).
Lemma segments_template ps : template ps -> (o_workflow o = true -> forall w, In (SName w) ps -> ~ style_name (EQName z w)) ->
  (forall src rs, dq (o_hex o) src rs -> match ps with SText _ :: _ => False | _ => True end ->
    segments o S (chars rs ++ map segment_shown ps) (encode src ++ flat_map segment_text ps ++ [""""%ch]))
  /\ segments o S (map segment_shown ps) (flat_map segment_text ps ++ [""""%ch]).
Proof.
  induction ps as [|p ps IH]; intros HT HW.
  - split.
    + intros src rs H _. cbn [map flat_map]. rewrite app_nil_r. apply b_end. exact H.
    + apply (@b_end o S [] []). constructor.
  - destruct HT as [Hp HT]. destruct (IH HT (fun Hw w HI => HW Hw w (or_intror HI))) as [I1 I2]. clear IH.
    assert (P : forall src rs, dq (o_hex o) src rs -> match p with SText _ => False | _ => True end ->
      segments o S (chars rs ++ map segment_shown (p :: ps)) (encode src ++ flat_map segment_text (p :: ps) ++ [""""%ch])).
    { intros src rs H HN. cbn [map flat_map]. destruct p as [r|w|w|t]; [destruct HN| | |]; cbn [segment_shown segment_tree segment_text].
      - destruct Hp as (H1 & H2 & H3). cbn [app]. rewrite <- app_assoc. apply (@b_name o S src rs w 0); [exact H|apply tt_name; assumption|exact H3|exact I2].
      - destruct Hp as (H1 & H2). set (kn := mktk [] false TIdentifier (VStr w) 0 w). set (ke := mktk [] false TEnd VNil 0 ("}"%ch :: flat_map segment_text ps ++ [""""%ch])).
        replace ((lit "${" ++ w ++ lit "}") ++ flat_map segment_text ps) with ("$"%ch :: "{"%ch :: (w ++ lit "}") ++ flat_map segment_text ps) by reflexivity.
        replace (encode src ++ ("$"%ch :: "{"%ch :: (w ++ lit "}") ++ flat_map segment_text ps) ++ [""""%ch]) with (encode src ++ "$"%ch :: "{"%ch :: render ([kn] ++ [ke])).
        2: { unfold render. cbn [app flat_map kn ke k_gap k_txt]. rewrite app_nil_r, <- !app_assoc. reflexivity. }
        apply (@b_expr o S src rs [kn] ke (EQName z w)) with (rest := flat_map segment_text ps ++ [""""%ch]); try reflexivity; try assumption.
        + cbn [app stream embedded kn ke k_tok k_gap k_brk k_val k_txt k_radix]. split; [apply wr_token; [apply tt_name; assumption|discriminate]|]. split; [split; [constructor|reflexivity]|]. split; [exact Logic.I|].
          split; [|split; [discriminate|split; [discriminate|]]].
          * unfold render. cbn [flat_map app ke k_gap k_txt]. cbn [clash first_byte]. intros X. unfold wordchar, lower, upper, digit, double_colon in X. cbn in X. intuition (try lia; try discriminate). all: match goal with H : exists _, _ |- _ => destruct H; discriminate end.
          * split; [apply wr_close; reflexivity|]. split; [split; [constructor|reflexivity]|]. split; [exact Logic.I|]. split; [intros []|]. split; [discriminate|]. auto.
        + cbn. intuition discriminate.
        + intros ns. apply op_rel; [apply atom_op; [apply a_name; reflexivity|reflexivity|lia]|]. intros Hw. apply (HW Hw w). left. reflexivity.
      - destruct (shown_plain t) as [E1 E2]. rewrite <- E1.
        set (ke := mktk [32] false TEnd VNil 0 ("}"%ch :: flat_map segment_text ps ++ [""""%ch])).
        replace (encode src ++ ((lit "${ " ++ SpecOps.written t ++ lit " }") ++ flat_map segment_text ps) ++ [""""%ch]) with (encode src ++ "$"%ch :: "{"%ch :: render (toks t false ++ [ke])).
        2: { unfold ke. rewrite (@ops_text o t _ Hp). change (lit "${ ") with ["$"%ch; "{"%ch; 32]. cbn [app]. rewrite <- !app_assoc. reflexivity. }
        destruct (@toks_good o t Hp false (Some TLc) ltac:(discriminate)) as [HO _].
        apply (@b_expr o S src rs (toks t false) ke (shown t)) with (rest := flat_map segment_text ps ++ [""""%ch]); try reflexivity; try assumption.
        + eapply ok_embedded; [discriminate|exact HO|apply toks_brk|reflexivity].
        + apply toks_head.
        + intros ns. apply op_rel; [eapply up_ops; [apply toks_derive; exact Hp|apply legal_prec; exact Hp|lia]|intros _; apply shown_style]. }
    split; [intros src rs H HN; apply P; [exact H|destruct p; auto]|].
    destruct p as [rs|w|w|t]; [|apply (P [] []); [constructor|exact Logic.I]..].
    destruct Hp as (H1 & H2 & H3). cbn [map flat_map segment_shown segment_tree segment_text]. rewrite <- app_assoc.
    assert (E : EString z (encode rs) :: map segment_shown ps = chars rs ++ map segment_shown ps) by (destruct rs; [congruence|reflexivity]). rewrite E.
    apply I1; [apply dq_in_double_quotes; exact H2|exact H3].
Qed.
End Templates.
(** In particular: for every sequence of texts, [$w], [${w}] and [${ expression }]
    (any operator expression), the string is parsed into exactly these segments,
    the expressions as if they stood by themselves.  (In workflow mode [w] in
    [${w}] is none of the words that begin a step.) *)
Theorem C49_templates : forall o single brk before after ps,
  manifests o -> gap brk before -> end_gap after -> template ps -> interpolated ps -> (o_workflow o = true -> forall w, In (SName w) ps -> ~ In w (map lit ["action"; "resource"; "stateHandler"; "workflow"]%string)) ->
  exists es, parses o (before ++ template_text ps ++ after) single (whole single (EConcat z es))
    /\ map unparen es = map segment_tree ps.
Proof.
  intros o single brk g1 g2 ps HP H1 H2 HT (p & HI & Hp) HW. exists (map segment_shown ps). split.
  - apply (@C49_interpolated_strings o 1 single brk); [exact HP|exact H1|exact H2|]. unfold template_text. cbn [splices]. apply spliced_of.
    + apply (@segments_template o (splices o 0) ps HT). intros Hw w Hi (w1 & s & HJ & X). apply (HW Hw w Hi). injection X as ->. apply (in_map (fun p => lit (fst p))) in HJ. exact HJ.
    + destruct p as [rs|w|w|t]; [destruct Hp|eexists; apply in_map_iff; eexists; split; [|exact HI]; reflexivity..].
  - rewrite map_map. apply map_ext. intros [rs|w|w|t]; try reflexivity. cbn [segment_shown segment_tree unparen]. rewrite unparen_shown. reflexivity.
Qed.
Definition puppet : opts := mkopts false false false false false true (fun _ => false).
Definition case_template : list segment :=
  [SText (lit "x = "); SVar (lit "x"); SText (lit ", $ "); SName (lit "y"); SVar (lit "n");
   SOps (OBin 4 "+" KArithmetic (OInt 1) (OBin 3 "*" KArithmetic (OBin 4 "-" KArithmetic (OVar (lit "a")) (OInt 2)) (OInt 3)))].
Example C49_case : template case_template /\ interpolated case_template
  /\ template_text case_template = lit """x = $x, \$ ${y}$n${ 1 + ( $a - 2 ) * 3 }""".
Proof.
  split; [|split; [exists (SVar (lit "x")); cbn; auto|vm_compute; reflexivity]].
  assert (Q : forall c, lower c -> qualified lower [c]) by (intros c H; apply q_one; [exact H|constructor]).
  assert (R : forall c, In c [120; 121; 110] -> ~ In [c] (map lit reserved_words)) by (intros c H; cbn in H; vm_compute; intuition congruence).
  unfold case_template. cbn [template]. repeat match goal with |- _ /\ _ => split end; try exact Logic.I;
    try (repeat constructor; fail); try discriminate; try (apply Q; unfold lower; cbn; lia); try (apply R; cbn; auto; fail).
  - vm_compute. intuition (try discriminate; try lia). all: match goal with H : exists _, _ |- _ => destruct H; discriminate end.
  - vm_compute. intuition (try discriminate; try lia). all: match goal with H : exists _, _ |- _ => destruct H; discriminate end.
  - cbn [legal]. repeat match goal with |- _ /\ _ => split end; solve [lia|apply Q; unfold lower; cbn; lia|unfold binary_operators; cbn [In]; repeat (first [left; reflexivity|right])].
Qed.
Example C49_case_run : exists e, parse conf_fuel puppet (template_text case_template) true = POk e
  /\ strip e = EConcat z [EString z (lit "x = "); EUn z KText (EUn z KVariable (EQName z (lit "x"))); EString z (lit ", $ ");
    EUn z KText (EUn z KVariable (EQName z (lit "y"))); EUn z KText (EUn z KVariable (EQName z (lit "n")));
    EUn z KText (EBin z KArithmetic (lit "+") (EInt z 10 1) (EBin z KArithmetic (lit "*") (EUn z KParen (EBin z KArithmetic (lit "-") (EUn z KVariable (EQName z (lit "a"))) (EInt z 10 2))) (EInt z 10 3)))].
Proof. eexists. split; vm_compute; reflexivity. Qed.
(** a string in a string *)
Definition inner_string : str := lit """b$c""".
Definition inner_tree : expr := EConcat z [EString z (lit "b"); EUn z KText (EUn z KVariable (EQName z (lit "c")))].
Lemma inner_splices : splices puppet 1 inner_tree inner_string.
Proof.
  unfold inner_tree, inner_string. change (lit """b$c""") with (""""%ch :: encode [98] ++ "$"%ch :: [99] ++ (encode [] ++ [""""%ch])). cbn [splices].
  apply spliced_of; [|eexists; cbn; auto]. change ([EString z (lit "b"); EUn z KText (EUn z KVariable (EQName z (lit "c")))]) with (chars [98] ++ EUn z KText (EUn z KVariable (EQName z [99])) :: chars []).
  apply (@b_name _ _ [98] [98] [99] 0).
  - apply dq_plain; [unfold rune_ok; cbn; intuition (try discriminate; lia)|discriminate|discriminate|discriminate|constructor].
  - apply tt_name; [apply q_one; [unfold lower; cbn; lia|constructor]|vm_compute; intuition discriminate].
  - vm_compute. intuition (try discriminate; try lia). all: match goal with H : exists _, _ |- _ => destruct H; discriminate end.
  - apply b_end. constructor.
Qed.
Example C49_nested_case : splices puppet 2 (EConcat z [EString z (lit "a"); EUn z KText inner_tree]) (lit """a${""b$c""}""").
Proof.
  set (ks := mktk [] false TConcatenatedString (VExpr inner_tree) 0 inner_string). set (ke := mktk [] false TEnd VNil 0 (lit "}""")).
  change (lit """a${""b$c""}""") with (""""%ch :: encode [97] ++ "$"%ch :: "{"%ch :: render ([ks] ++ [ke])).
  change (EConcat z [EString z (lit "a"); EUn z KText inner_tree]) with (EConcat z (chars [97] ++ EUn z KText (as_variable inner_tree) :: chars [])).
  cbn [splices]. apply spliced_of; [|eexists; cbn; eauto].
  apply (@b_expr _ _ [97] [97] [ks] ke inner_tree (chars []) (encode [] ++ [""""%ch])).
  - apply dq_plain; [unfold rune_ok; cbn; intuition (try discriminate; lia)|discriminate|discriminate|discriminate|constructor].
  - cbn [app stream embedded ks ke k_tok k_gap k_brk k_val k_txt k_radix]. split; [apply wr_string; exact inner_splices|]. split; [split; [constructor|reflexivity]|]. split; [exact Logic.I|].
    split; [vm_compute; intuition discriminate|]. split; [discriminate|]. split; [discriminate|]. split; [apply wr_close; reflexivity|]. split; [split; [constructor|reflexivity]|]. split; [exact Logic.I|]. split; [intros []|]. split; [discriminate|]. auto.
  - cbn. intuition discriminate.
  - reflexivity.
  - reflexivity.
  - intros ns. apply op_rel; [apply atom_op; [apply a_concat; reflexivity|reflexivity|lia]|no_name].
  - reflexivity.
  - apply b_end. constructor.
Qed.
Example C49_nested_run : exists e, parse conf_fuel puppet (lit """a${""b$c""}""") true = POk e /\ strip e = EConcat z [EString z (lit "a"); EUn z KText inner_tree].
Proof. eexists. split; vm_compute; reflexivity. Qed.
Print Assumptions C49_interpolated_strings.
Print Assumptions C49_one_reading.
Print Assumptions C49_templates.
