(** * PropertiesWhole: a successful Parse has read the whole source (C53)

    Nothing after the last statement is ignored.  A NUL byte ends a source (see
    the refutation), and with both EPP and workflow syntax a step that ends
    early does not count as read (see the second refutation): these are
    excluded.  A heredoc that is not ended by a newline gives one byte more than
    the source has (third case), so heredocs are excluded from the second
    theorem, as are workflows, which C43 excludes for the same reason. *)
From Verif Require Import Base Float Tokens Ast Ctx Locator Lexer Parser Api Conform SpecVisit SpecValidate SpecParse VisitProof ParseProof.
From Verif Require Import RngBase RngTop PosTop CalmParse WholeProof PropertiesCrash.
From Coq Require Import Lia.

(** ** C53: the parser is at the end of the source, and so is the program *)
Theorem C53_parse_reads_everything : forall o c fuel source single e c',
  parser_state o c -> ~ In 0 source -> (o_epp o = true -> o_workflow o = false) ->
  parse_run fuel c source single = Ok e c' ->
  zlen source <= c_pos c' /\ (single = false -> byteOffset e = 0 /\ byteLength e = c_pos c').
Proof.
  intros o c fuel source single e c' HP H0 HM HR. destruct (parser_state_gate HP) as [HO _].
  pose proof (@read_all source o H0 HM fuel c single HO) as H. rewrite HR in H. split; [exact H|].
  intros ->. revert HR. unfold parse_run. destruct (parseTop _ _ _) as [e0 d| |]; try discriminate. intros [= <- <-]. split; reflexivity.
Qed.
(** the text of the program is the source *)
Theorem C53_program_is_the_source : forall o c fuel source e c',
  parser_state o c -> ~ In 0 source -> ~ contains source (lit "@(") -> o_workflow o = false ->
  parse_run fuel c source false = Ok e c' ->
  byteOffset e = 0 /\ byteLength e = zlen source /\ node_text source (epos e) = inl source.
Proof.
  intros o c fuel source e c' HP H0 HH HW HR.
  destruct (C53_parse_reads_everything HP H0 (fun _ => HW) HR) as [HL HE]. destruct (HE eq_refl) as [E1 E2].
  assert (byteLength e = zlen source) as E3.
  { pose proof (@run_range fuel c source false (state_bol HP)) as R. rewrite HR in R.
    assert (~ RngBase.heredoc source) as Hh by (intros (a & b & ->); apply HH; exists a, b; reflexivity).
    destruct (parser_state_gate HP) as [HO _]. rewrite HO in R. destruct (R Hh HW) as [HI _].
    pose proof (within_span HI) as S. unfold spanned, eend in S. lia. }
  split; [exact E1|]. split; [exact E3|].
  unfold node_text, byteOffset, byteLength in *. rewrite E1, E3. pose proof (@zlen_nn _ source).
  replace ((0 <=? 0) && (0 <=? 0 + zlen source) && (0 + zlen source <=? zlen source)) with true by (symmetry; rewrite !Bool.andb_true_iff, !Z.leb_le; lia).
  f_equal. unfold slice. cbn [Z.to_nat skipn]. rewrite firstn_all2; [reflexivity|]. unfold zlen. lia.
Qed.

(** *** Cases *)
Definition plain (epp workflow : bool) : opts := mkopts epp false false false workflow true (fun _ => false).
(** statements, a comment and blanks at the end *)
Example C53_case : exists e c',
  parse_run conf_fuel (createParser (plain false false)) (lit "notice(1) $a = { b => 2 }  # end") false = Ok e c' /\
  ~ In 0 (lit "notice(1) $a = { b => 2 }  # end") /\ ~ contains (lit "notice(1) $a = { b => 2 }  # end") (lit "@(") /\
  byteLength e = 32.
Proof.
  do 2 eexists. split; [vm_compute; reflexivity|]. split; [|split; [|vm_compute; reflexivity]].
  - vm_compute. intros H. repeat (destruct H as [H|H]; [discriminate|]). exact H.
  - intros (a & b & E). assert (In 64 (lit "notice(1) $a = { b => 2 }  # end")) as H by (rewrite E; apply in_or_app; right; left; reflexivity).
    revert H. vm_compute. intros H. repeat (destruct H as [H|H]; [discriminate|]). exact H.
Qed.
(** a template; a workflow *)
Example C53_epp_case : exists e c',
  parse_run conf_fuel (createParser (plain true false)) (lit "<%| $a |%>x <%= $a %> y ") false = Ok e c' /\ c_pos c' = 24 /\ byteLength e = 24.
Proof. do 2 eexists. split; [vm_compute; reflexivity|split; vm_compute; reflexivity]. Qed.
Example C53_workflow_case : exists e c',
  parse_run conf_fuel (createParser (plain false true)) (lit "action a {} {}  ") false = Ok e c' /\ c_pos c' = 16.
Proof. do 2 eexists. split; vm_compute; reflexivity. Qed.
(** *** What is excluded: a NUL byte ends the source; so does, with EPP and
    workflow syntax, the word of a step at the end of a template's code *)
Theorem C53_refuted_nul : exists e c',
  parse_run conf_fuel (createParser (plain false false)) (lit "notice(1)" ++ [0] ++ lit ") } if") false = Ok e c' /\ byteLength e = 10.
Proof. do 2 eexists. split; vm_compute; reflexivity. Qed.
Theorem C53_refuted_epp_workflow : exists e c',
  parse_run conf_fuel (createParser (plain true true)) (lit "<%| $a |%><% action %>") false = Ok e c' /\ c_pos c' < zlen (lit "<%| $a |%><% action %>").
Proof. do 2 eexists. split; vm_compute; reflexivity. Qed.
Print Assumptions C53_parse_reads_everything.
Print Assumptions C53_program_is_the_source.
Print Assumptions C53_refuted_nul.
Print Assumptions C53_refuted_epp_workflow.
