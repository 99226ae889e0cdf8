(** * LexFrame: the lexer functions that only move positions *)
From Verif Require Import Base Float Tokens Ast Ctx Lexer Wp.

Lemma framed_skipWhite b : framed (skipWhite b).
Proof.
  unfold skipWhite. apply framed_while. intros [cs csp]. unfold skipWhite_step. framed_tac.
  destruct (_ <=? _); [|apply frame_refl]. eapply frame_trans; [apply frame_pos|apply frame_nls].
Qed.
Lemma framed_skipWhiteInLiteral : framed skipWhiteInLiteral.
Proof. unfold skipWhiteInLiteral. framed_tac. Qed.
Lemma framed_skip_while p : framed (skip_while p).
Proof. unfold skip_while. framed_tac. Qed.
Lemma framed_skipDecimalDigits : framed skipDecimalDigits.
Proof. unfold skipDecimalDigits. framed_tac. apply framed_skip_while. Qed.
Lemma framed_dash_scan i : framed (dash_scan i).
Proof. unfold dash_scan. framed_tac. Qed.
Lemma framed_qualifiedName_step s t st : framed (qualifiedName_step s t st).
Proof. unfold qualifiedName_step. framed_tac; try apply framed_skip_while; try apply framed_dash_scan. Qed.
Lemma framed_digits_or_fail : framed digits_or_fail.
Proof. unfold digits_or_fail. framed_tac. apply framed_skipDecimalDigits. Qed.
Lemma framed_unterminatedQuote A s d : framed (@unterminatedQuote A s d).
Proof. unfold unterminatedQuote. framed_tac. Qed.
Lemma framed_appendHexadec b : framed (appendHexadec b).
Proof. unfold appendHexadec. framed_tac. Qed.
Lemma framed_unicode_digit b : framed (unicode_digit b).
Proof. unfold unicode_digit. framed_tac. Qed.
Lemma framed_appendUnicode b : framed (appendUnicode b).
Proof. unfold appendUnicode. framed_tac; try apply framed_unicode_digit; apply framed_skip_while. Qed.
Lemma framed_handle_escape h b e : framed (handle_escape h b e).
Proof. unfold handle_escape. framed_tac; try apply framed_appendUnicode; apply framed_appendHexadec. Qed.
Lemma framed_stripIndent i : framed (stripIndent i).
Proof. unfold stripIndent. framed_tac. Qed.
Lemma framed_extract_flags s l : framed (extract_flags s l).
Proof. induction l; cbn [extract_flags]; framed_tac; try apply IHl. Qed.
Lemma framed_tagEnd_step s h d : framed (tagEnd_step s h d).
Proof.
  unfold tagEnd_step. framed_tac; try apply framed_skip_while; unfold extractFlags; framed_tac; apply framed_extract_flags.
Qed.
Lemma framed_startOfText_step h st : framed (startOfText_step h st).
Proof.
  unfold startOfText_step. framed_tac; try apply framed_skipWhite.
  destruct (_ <=? _); [|apply frame_pos]. eapply frame_trans; [apply frame_pos|apply frame_nls].
Qed.
Lemma framed_endOfText_step h t st : framed (endOfText_step h t st).
Proof. unfold endOfText_step. framed_tac; apply framed_skipWhiteInLiteral. Qed.
Lemma framed_epp_comment p : framed (epp_comment p).
Proof. unfold epp_comment. framed_tac. Qed.
Global Hint Resolve framed_skipWhite framed_skipWhiteInLiteral framed_skip_while framed_skipDecimalDigits framed_dash_scan
  framed_qualifiedName_step framed_digits_or_fail framed_unterminatedQuote framed_appendHexadec framed_unicode_digit framed_appendUnicode
  framed_handle_escape framed_stripIndent framed_extract_flags framed_tagEnd_step framed_startOfText_step framed_endOfText_step
  framed_epp_comment framed_ret framed_ask framed_throw framed_issue2 framed_issue framed_setPos framed_advance framed_peek
  framed_peekAt framed_next framed_from framed_while : framed.
