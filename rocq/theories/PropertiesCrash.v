(** * PropertiesCrash: Parse does not crash (C16), and the text of a node is a
    piece of the source (C43)

    Both are false as they stand: see the refutations.  They hold for every
    parser state, every mode but workflow syntax, and every source without a
    heredoc; C16 also needs that the source does not contain the word [type]. *)
From Verif Require Import Base Float Tokens Ast Ctx Locator Lexer Parser Api Conform SpecVisit SpecValidate SpecParse ReaderProof VisitProof.
From Verif Require Import RngBase RngTop PosTop CalmParse ParseProof PropertiesTree.
From Coq Require Import Lia.

(** [piece] occurs in [text] *)
Definition contains (text piece : str) : Prop := exists before after, text = before ++ piece ++ after.
(** [mid] is the piece of [text] that starts at the offset [off] and is [n]
    bytes long *)
Definition piece_of (text : str) (off n : Z) (mid : str) : Prop :=
  exists before after, text = before ++ mid ++ after /\ zlen before = off /\ zlen mid = n.

Lemma piece_of_slice text off n : 0 <= off -> 0 <= n -> off + n <= zlen text -> piece_of text off n (slice text off (off + n)).
Proof.
  intros H1 H2 H3. exists (firstn (Z.to_nat off) text), (skipn (Z.to_nat (off + n)) text). unfold slice.
  replace (off + n - off) with n by lia. rewrite skipn_skipn_z by lia.
  rewrite !firstn_skipn. unfold zlen in *. rewrite !firstn_length, skipn_length. split; [reflexivity|lia].
Qed.
Lemma prefix_dec (piece text : str) : (exists after, text = piece ++ after) \/ ~ exists after, text = piece ++ after.
Proof.
  revert text. induction piece as [|x p IH]; intros t; [left; exists t; reflexivity|].
  destruct t as [|y t]; [right; intros (a & E); discriminate|]. destruct (Z.eq_dec x y) as [->|N].
  - destruct (IH t) as [(a & ->)|N]; [left; exists a; reflexivity|right; intros (a & E); injection E as E; eauto].
  - right. intros (a & E). injection E as E1 E2. congruence.
Qed.
Lemma contains_dec (text piece : str) : contains text piece \/ ~ contains text piece.
Proof.
  induction text as [|x t IH].
  - destruct (prefix_dec piece []) as [(a & E)|N]; [left; exists [], a; exact E|]. right. intros (b & a & E). destruct b; [eauto|discriminate].
  - destruct (prefix_dec piece (x :: t)) as [(a & E)|N]; [left; exists [], a; exact E|].
    destruct IH as [(b & a & ->)|N2]; [left; exists (x :: b), a; reflexivity|]. right. intros (b & a & E).
    destruct b as [|y b]; [apply N; exists a; exact E|]. injection E as _ E. apply N2. exists b, a. exact E.
Qed.
Lemma below_sub e a anc d : below e a anc d -> sub d e.
Proof.
  induction 1 as [e i c H|e i c a anc d H _ IH]; apply nth_error_In in H; rewrite parts_children in H; econstructor; eauto; constructor.
Qed.
Lemma node_sub e anc d : node_at e anc d -> sub d e.
Proof. intros [[_ ->]|[a H]]; [constructor|eapply below_sub; eauto]. Qed.
Lemma text_of_span text e : spanned 0 (zlen text) e ->
  exists mid, node_text text (epos e) = inl mid /\ piece_of text (byteOffset e) (byteLength e) mid.
Proof.
  unfold spanned, eend, byteOffset, byteLength. intros H. exists (slice text (p_off (epos e)) (p_off (epos e) + p_len (epos e))). split.
  - unfold node_text. destruct (_ && _) eqn:E; [reflexivity|lia].
  - apply piece_of_slice; lia.
Qed.

(** ** C16 *)
(** Three sources that crash a new parser: [type A = B {} + 1] (a type
    assertion), a workflow whose iteration is assigned to a numeric variable (a
    panic with a string) and a heredoc whose only line is its end marker with a minus. *)
Theorem C16_refuted :
  parse conf_fuel puppet (lit "type A = B {} + 1") false = PCrash GoTypeAssert /\
  parse conf_fuel workflow (lit "workflow foo {} $1 = times(3) {}") false = PCrash GoString /\
  parse conf_fuel puppet (lit "@(X)" ++ [10] ++ lit "-X") false = PCrash GoSliceBounds.
Proof. split; [|split]; vm_compute; reflexivity. Qed.
(** Missing from the full property: workflow syntax, heredocs, and sources with
    the word type in them, each of which can crash (above). *)
Theorem C16_no_crash_partial : forall o c fuel source single s c',
  parser_state o c -> o_workflow o = false ->
  ~ contains source (lit "@(") -> ~ contains source (lit "type") ->
  parse_run fuel c source single <> Err (GoPanic s) c'.
Proof.
  intros o c fuel source single s c' HP HW HH HT E.
  pose proof (proj1 (parser_state_gate HP)) as HO.
  pose proof (@run_range fuel c source single (state_bol HP) HH ltac:(rewrite HO; exact HW)) as R.
  pose proof (@run_calm fuel c source single) as K. rewrite E in R, K. rewrite HO in K.
  destruct s; cbn in R, K; first [contradiction|apply HT; exact K|congruence].
Qed.
(** What the word type adds is one kind of crash, a failed type assertion; what
    heredocs add is another, slice bounds; workflow syntax a third. *)
Theorem C16_crashes_partial : forall o c fuel source single s c',
  parser_state o c -> parse_run fuel c source single = Err (GoPanic s) c' ->
  (s = GoTypeAssert /\ contains source (lit "type")) \/
  (s = GoString /\ o_workflow o = true) \/
  ((s = GoSliceBounds \/ s = GoIndex) /\ (o_workflow o = true \/ contains source (lit "@("))).
Proof.
  intros o c fuel source single s c' HP E.
  pose proof (proj1 (parser_state_gate HP)) as HO. pose proof (@run_calm fuel c source single) as K. rewrite E in K. rewrite HO in K.
  assert (R : o_workflow o = false -> ~ contains source (lit "@(") -> Er (GoPanic s) c').
  { intros HW HH. pose proof (@run_range fuel c source single (state_bol HP) HH ltac:(rewrite HO; exact HW)) as R. rewrite E in R. exact R. }
  destruct s; cbn in K, R; try contradiction; auto.
  all: right; right; split; [auto|]; destruct (o_workflow o); auto; right; destruct (contains_dec source (lit "@(")); [assumption|]; destruct (R eq_refl); assumption.
Qed.
(** the hypotheses are met by sources that are parsed and by sources that are
    refused *)
Example C16_case : o_workflow puppet = false /\ ~ contains (lit "class a { notice('b') }") (lit "@(") /\
  ~ contains (lit "class a { notice('b') }") (lit "type") /\
  exists e c', parse_run conf_fuel (createParser puppet) (lit "class a { notice('b') }") false = Ok e c'.
Proof.
  assert (N : forall p, forallb (fun n => negb (str_eqb (firstn (@List.length Z p) (skipn n (lit "class a { notice('b') }"))) p)) (seq 0 24) = true -> ~ contains (lit "class a { notice('b') }") p).
  { intros p H (b & a & E). assert (HL : (@List.length Z b <= 23)%nat).
    { apply (f_equal (@List.length Z)) in E. rewrite app_length in E. change (@List.length Z (lit "class a { notice('b') }")) with 23%nat in E. lia. }
    rewrite forallb_forall in H. specialize (H (@List.length Z b)). rewrite in_seq in H. specialize (H ltac:(lia)). rewrite E, skipn_app in H.
    rewrite skipn_all in H. replace (@List.length Z b - @List.length Z b)%nat with O in H by lia. cbn [app skipn] in H. rewrite firstn_app, firstn_all in H.
    replace (@List.length Z p - @List.length Z p)%nat with O in H by lia. cbn [firstn] in H. rewrite app_nil_r in H.
    enough (str_eqb p p = true) as X by (rewrite X in H; discriminate). apply str_eqb_refl. }
  split; [reflexivity|]. split; [apply N; vm_compute; reflexivity|]. split; [apply N; vm_compute; reflexivity|].
  eexists _, _. vm_compute. reflexivity.
Qed.
Print Assumptions C16_refuted.
Print Assumptions C16_no_crash_partial.
Print Assumptions C16_crashes_partial.

(** ** C43 *)
(** A node of a workflow has a negative length; and a heredoc whose end marker
    is the end of the source makes the program node one byte too long. *)
Theorem C43_refuted :
  (exists e c' anc d, parse_run conf_fuel (createParser workflow) (lit "action foo { returns => $a } {}") false = Ok e c' /\
    node_at e anc d /\ node_text (lit "action foo { returns => $a } {}") (epos d) = inr (GoPanic GoSliceBounds)) /\
  (exists e c', parse_run conf_fuel (createParser puppet) (lit "@(X)" ++ [10] ++ lit "a" ++ [10] ++ lit "X") false = Ok e c' /\
    node_text (lit "@(X)" ++ [10] ++ lit "a" ++ [10] ++ lit "X") (epos e) = inr (GoPanic GoSliceBounds)).
Proof.
  split.
  - do 4 eexists. split; [vm_compute; reflexivity|]. split.
    + right. exists [0; 0; 0; 0; 0]%nat. do 4 (eapply below_deep; [reflexivity|]). apply below_child. reflexivity.
    + vm_compute. reflexivity.
  - do 2 eexists. split; vm_compute; reflexivity.
Qed.
(** Missing from the full property: workflow syntax and heredocs, for which it
    is false (above). *)
Theorem C43_nodes_are_pieces_partial : forall o c fuel source single e c' anc d,
  parser_state o c -> o_workflow o = false -> ~ contains source (lit "@(") ->
  parse_run fuel c source single = Ok e c' -> node_at e anc d ->
  exists mid, node_text source (epos d) = inl mid /\ piece_of source (byteOffset d) (byteLength d) mid.
Proof.
  intros o c fuel source single e c' anc d HP HW HH E HN. pose proof (proj1 (parser_state_gate HP)) as HO.
  pose proof (@run_range fuel c source single (state_bol HP) HH ltac:(rewrite HO; exact HW)) as R. rewrite E in R.
  apply text_of_span. apply (proj1 R). eapply node_sub; eauto.
Qed.
(** and the nodes below the definitions of the program *)
Theorem C43_definitions_are_pieces_partial : forall o c fuel source p b ds c' x anc d,
  parser_state o c -> o_workflow o = false -> ~ contains source (lit "@(") ->
  parse_run fuel c source false = Ok (EProgram p b ds) c' -> In x ds -> node_at x anc d ->
  exists mid, node_text source (epos d) = inl mid /\ piece_of source (byteOffset d) (byteLength d) mid.
Proof.
  intros o c fuel source p b ds c' x anc d HP HW HH E HX HN. pose proof (proj1 (parser_state_gate HP)) as HO.
  pose proof (@run_range fuel c source false (state_bol HP) HH ltac:(rewrite HO; exact HW)) as R. rewrite E in R.
  assert (X : ds = c_defs c').
  { unfold parse_run in E. destruct (parseTop _ _ _); congruence. }
  subst ds. destruct R as [_ R]. rewrite Forall_forall in R.
  apply text_of_span. apply (R x HX). eapply node_sub; eauto.
Qed.
Example C43_case : exists e c' anc d, parse_run conf_fuel (createParser puppet) (lit "$a + [1, f(2)]") false = Ok e c' /\
  node_at e anc d /\ node_text (lit "$a + [1, f(2)]") (epos d) = inl (lit "f(2)").
Proof.
  do 4 eexists. split; [vm_compute; reflexivity|]. split.
  - right. exists [0; 0; 1; 1]%nat. do 3 (eapply below_deep; [reflexivity|]). apply below_child. reflexivity.
  - vm_compute. reflexivity.
Qed.
Print Assumptions C43_refuted.
Print Assumptions C43_nodes_are_pieces_partial.
Print Assumptions C43_definitions_are_pieces_partial.
