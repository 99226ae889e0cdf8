(** * CalmFrame: the lexer functions that only move positions crash, if at
    all, on a text index *)
From Verif Require Import Base Float Tokens Ast Ctx Locator Lexer Parser Wp.

(** the only run-time panics are those of reading the text *)
Definition soft (e : err) : Prop :=
  match e with
  | GoPanic (GoSliceBounds | GoIndex) => True
  | GoPanic _ => False
  | _ => True
  end.
Definition softly (A : Type) (m : M A) : Prop := forall c, wp (fun e _ => soft e) m c (fun _ c' => frame c c').
Lemma softly_bind A B (m : M A) (k : A -> M B) : softly m -> (forall a, softly (k a)) -> softly (bind m k).
Proof.
  intros Hm Hk c. apply wp_bind. eapply wp_weaken; [apply Hm|]. intros a c' H. cbn beta.
  specialize (Hk a c'). unfold wp in *. destruct (k a c'); eauto using frame_trans.
Qed.
Lemma softly_ret A (a : A) : softly (ret a). Proof. intros c. apply frame_refl. Qed.
Lemma softly_ask A (f : ctx -> A) : softly (ask f). Proof. intros c. apply frame_refl. Qed.
Lemma softly_throw A e : soft e -> softly (@throw A e). Proof. intros H c. exact H. Qed.
Lemma softly_issue2 A code a : softly (@issue2 A code a). Proof. intros c. exact I. Qed.
Lemma softly_issue A code : softly (@issue A code). Proof. intros c. exact I. Qed.
Lemma softly_setPos p : softly (setPos p). Proof. intros c. apply frame_pos. Qed.
Lemma softly_advance p : softly (advance p). Proof. intros c. apply frame_pos. Qed.
Lemma softly_modify f : (forall c, frame c (f c)) -> softly (modify f). Proof. intros H c. apply H. Qed.
Lemma rune_at_soft p c e : rune_at p c = inr e -> soft e.
Proof.
  unfold rune_at. destruct (_ <=? _); [discriminate|]. destruct (_ <? _); [intros [= <-]; exact I|].
  destruct skipn as [|b s]; [discriminate|]. destruct (b <? 128); [discriminate|]. destruct decode_rune as [r w].
  destruct (_ =? _); [intros [= <-]; exact I|discriminate].
Qed.
Lemma softly_peek : softly peek.
Proof. intros c. unfold peek, wp. destruct rune_at eqn:E; [apply frame_refl|eapply rune_at_soft, E]. Qed.
Lemma softly_peekAt p : softly (peekAt p).
Proof. intros c. unfold peekAt, wp. destruct (p <? 0); [apply frame_refl|]. destruct rune_at eqn:E; [apply frame_refl|eapply rune_at_soft, E]. Qed.
Lemma softly_next : softly next.
Proof. intros c. unfold next, wp. destruct rune_at as [[r w]|] eqn:E; [apply frame_pos|eapply rune_at_soft, E]. Qed.
Lemma softly_from p : softly (from p).
Proof. intros c. unfold from, wp. destruct (_ && _); [apply frame_refl|exact I]. Qed.
Lemma softly_while A B (body : A -> M (A + B)) a : (forall a, softly (body a)) -> softly (while body a).
Proof.
  intros H c. eapply wp_while with (I := fun _ c' => frame c c'); [apply frame_refl|].
  intros x c' Hc. specialize (H x c'). unfold wp in *. destruct (body x c') as [[y|y] ?|? ?|]; eauto using frame_trans.
Qed.
Ltac softly1 :=
  match goal with
  | |- softly (bind _ _) => apply softly_bind; [|intros]
  | |- softly (ret _) => apply softly_ret
  | |- softly (ask _) => apply softly_ask
  | |- softly (throw _) => apply softly_throw; exact I
  | |- softly (issue2 _ _) => apply softly_issue2
  | |- softly (issue _) => apply softly_issue
  | |- softly (setPos _) => apply softly_setPos
  | |- softly (advance _) => apply softly_advance
  | |- softly peek => apply softly_peek
  | |- softly (peekAt _) => apply softly_peekAt
  | |- softly next => apply softly_next
  | |- softly (from _) => apply softly_from
  | |- softly getPos => apply softly_ask
  | |- softly (option_on _) => apply softly_ask
  | |- softly (isLetterM _) => apply softly_ask
  | |- softly curTok => apply softly_ask
  | |- softly (while _ _) => apply softly_while; intros
  | |- softly (match ?x with _ => _ end) => first [is_var x; destruct x | destruct x eqn:?]
  | |- softly (if ?x then _ else _) => destruct x eqn:?
  | |- softly (modify _) => apply softly_modify; intro; try apply frame_pos; try apply frame_nls; try apply frame_bol; try apply frame_tsp; try apply frame_radix
  end.
Ltac softly_tac := repeat (cbn beta; softly1).

Lemma softly_skipWhite b : softly (skipWhite b).
Proof.
  unfold skipWhite. apply softly_while. intros [cs csp]. unfold skipWhite_step. softly_tac.
  destruct (_ <=? _); [|apply frame_refl]. eapply frame_trans; [apply frame_pos|apply frame_nls].
Qed.
Lemma softly_skipWhiteInLiteral : softly skipWhiteInLiteral.
Proof. unfold skipWhiteInLiteral. softly_tac. Qed.
Lemma softly_skip_while p : softly (skip_while p).
Proof. unfold skip_while. softly_tac. Qed.
Lemma softly_skipDecimalDigits : softly skipDecimalDigits.
Proof. unfold skipDecimalDigits. softly_tac. apply softly_skip_while. Qed.
Lemma softly_dash_scan i : softly (dash_scan i).
Proof. unfold dash_scan. softly_tac. Qed.
Lemma softly_qualifiedName_step s t st : softly (qualifiedName_step s t st).
Proof. unfold qualifiedName_step. softly_tac; try apply softly_skip_while; try apply softly_dash_scan. Qed.
Lemma softly_digits_or_fail : softly digits_or_fail.
Proof. unfold digits_or_fail. softly_tac. apply softly_skipDecimalDigits. Qed.
Lemma softly_unterminatedQuote A s d : softly (@unterminatedQuote A s d).
Proof. unfold unterminatedQuote. softly_tac. Qed.
Lemma softly_appendHexadec b : softly (appendHexadec b).
Proof. unfold appendHexadec. softly_tac. Qed.
Lemma softly_unicode_digit b : softly (unicode_digit b).
Proof. unfold unicode_digit. softly_tac. Qed.
Lemma softly_appendUnicode b : softly (appendUnicode b).
Proof. unfold appendUnicode. softly_tac; try apply softly_unicode_digit; apply softly_skip_while. Qed.
Lemma softly_handle_escape h b e : softly (handle_escape h b e).
Proof. unfold handle_escape. softly_tac; try apply softly_appendUnicode; apply softly_appendHexadec. Qed.
Lemma softly_stripIndent i : softly (stripIndent i).
Proof. unfold stripIndent. softly_tac. Qed.
Lemma softly_extract_flags s l : softly (extract_flags s l).
Proof. induction l; cbn [extract_flags]; softly_tac; try apply IHl. Qed.
Lemma softly_tagEnd_step s h d : softly (tagEnd_step s h d).
Proof.
  unfold tagEnd_step. softly_tac; try apply softly_skip_while; unfold extractFlags; softly_tac; apply softly_extract_flags.
Qed.
Lemma softly_startOfText_step h st : softly (startOfText_step h st).
Proof.
  unfold startOfText_step. softly_tac; try apply softly_skipWhite.
  destruct (_ <=? _); [|apply frame_pos]. eapply frame_trans; [apply frame_pos|apply frame_nls].
Qed.
Lemma softly_endOfText_step h t st : softly (endOfText_step h t st).
Proof. unfold endOfText_step. softly_tac; apply softly_skipWhiteInLiteral. Qed.
Lemma softly_epp_comment p : softly (epp_comment p).
Proof. unfold epp_comment. softly_tac. Qed.
Lemma softly_span s : softly (span s).
Proof. unfold span. softly_tac. Qed.
Lemma softly_assertToken t : softly (assertToken t).
Proof. unfold assertToken. softly_tac. Qed.
Lemma softly_toTokenStart : softly toTokenStart.
Proof. unfold toTokenStart. softly_tac. Qed.
Lemma softly_tokStart : softly tokStart.
Proof. unfold tokStart. softly_tac. Qed.
Lemma softly_getPos : softly getPos.
Proof. unfold getPos. softly_tac. Qed.
Lemma softly_isLetterM c : softly (isLetterM c).
Proof. unfold isLetterM. softly_tac. Qed.
Lemma softly_extractFlags s : softly (extractFlags s).
Proof. unfold extractFlags. softly_tac. apply softly_extract_flags. Qed.
Lemma softly_wpos f : softly (modify (fun c => with_pos (f c) c)).
Proof. softly_tac. Qed.
Lemma softly_wtsp f : softly (modify (fun c => with_tsp (f c) c)).
Proof. softly_tac. Qed.
Lemma softly_wtsp' x : softly (modify (with_tsp x)).
Proof. softly_tac. Qed.
Lemma softly_wradix x : softly (modify (with_radix x)).
Proof. softly_tac. Qed.
Lemma softly_unexpected_char A s c : softly (@unexpected_char A s c).
Proof. unfold unexpected_char. softly_tac. Qed.
Lemma softly_unexpectedToken A : softly (@unexpectedToken A).
Proof. unfold unexpectedToken. softly_tac. Qed.
Lemma softly_cont a b : softly (modify (fun c => with_nls a (with_pos b c))).
Proof. apply softly_modify. intros c. eapply frame_trans; [apply frame_pos|apply frame_nls]. Qed.
Lemma softly_of_sum A (x : A + err) : (forall e, x = inr e -> soft e) -> softly (of_sum x).
Proof. intros H. destruct x; cbn; [softly_tac|apply softly_throw; auto]. Qed.
Lemma lineForOffset_soft T p e : lineForOffset T p = inr e -> soft e.
Proof. unfold lineForOffset. destruct getLineIndex; [discriminate|]. intros [= <-]. exact I. Qed.
Lemma posOnLine_soft T p e : posOnLine T p = inr e -> soft e.
Proof.
  unfold posOnLine. destruct getLineIndex; [|intros [= <-]; exact I]. cbv zeta.
  destruct (_ <? 1); [intros [= <-]; exact I|]. destruct (p =? _); [discriminate|]. destruct (_ <? nth _ _ _); [intros [= <-]; exact I|discriminate].
Qed.
Lemma node_text_soft T p e : node_text T p = inr e -> soft e.
Proof. unfold node_text. destruct (_ && _); [discriminate|]. intros [= <-]. exact I. Qed.
Lemma softly_resourceShape e : softly (resourceShape e).
Proof. unfold resourceShape. destruct e; softly_tac. apply softly_of_sum. intros ?. apply node_text_soft. Qed.
Global Hint Resolve softly_skipWhite softly_skipWhiteInLiteral softly_skip_while softly_skipDecimalDigits softly_dash_scan
  softly_qualifiedName_step softly_digits_or_fail softly_unterminatedQuote softly_appendHexadec softly_unicode_digit softly_appendUnicode
  softly_handle_escape softly_stripIndent softly_extract_flags softly_tagEnd_step softly_startOfText_step softly_endOfText_step
  softly_epp_comment softly_ret softly_ask softly_issue2 softly_issue softly_setPos softly_advance softly_peek
  softly_peekAt softly_next softly_from softly_while softly_span softly_assertToken softly_toTokenStart softly_tokStart softly_getPos
  softly_isLetterM softly_extractFlags softly_wpos softly_wtsp softly_wtsp' softly_wradix softly_unexpected_char
  softly_unexpectedToken softly_cont softly_resourceShape : softly.
