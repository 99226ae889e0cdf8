(** * PropertiesErrors: malformed tokens (C55), and backticks (C27)

    Stated with SpecLexErr.v: [malformed o s code a k] says that the text [s]
    begins like a token but is none; [code] with the arguments [a] is what is
    wrong with it, and [k] how far behind its start it is reported. *)
From Verif Require Import Base Float Tokens Ast Ctx Lexer Parser Api LexBase SpecLex SpecLexErr LexErr.
From Coq Require Import Lia.

(** ** C55 *)
(** the first token of a source: Parse reports it, whatever parser is used
    (the templates begin with text instead) *)
Theorem C55_parse_reports : forall o parser single brk before s code a k,
  c_opts parser = o -> o_epp o = false -> gap brk before -> malformed o s code a k ->
  exists enough, forall fuel, (enough <= fuel)%nat ->
    to_presult (parse_run fuel parser (before ++ s) single) = PReported (Issue code a (zlen before + k)).
Proof.
  intros o c single brk g s code a k Ho He HG HM. set (c0 := start_ctx (g ++ s) c).
  destruct (@malformed_fails o s code a k brk g c0 HM HG) as (c' & n0 & K); [exists []; split; reflexivity|exact Ho|reflexivity|].
  exists n0. intros n Hn. unfold parse_run, parseTop, bind at 1, option_on, ask. change (c_opts (start_ctx (g ++ s) c)) with (c_opts c). rewrite Ho, He.
  fold c0. unfold bind at 1. rewrite (K n Hn). cbn [to_presult]. change (c_pos c0) with 0. rewrite Z.add_0_l. reflexivity.
Qed.
(** any later token, in any state of the lexer in which no heredoc is pending
    (a template too, between its tags) *)
Theorem C55_next_token_reports : forall lexer brk before s code a k,
  (exists read, c_text lexer = read ++ before ++ s /\ c_pos lexer = zlen read) -> c_nls lexer = -1 ->
  gap brk before -> malformed (c_opts lexer) s code a k ->
  exists enough, forall fuel, (enough <= fuel)%nat ->
    exists lexer', run fuel FNextToken lexer = Err (Issue code a (c_pos lexer + zlen before + k)) lexer'.
Proof.
  intros c brk g s code a k H Hn HG HM. destruct (@malformed_fails (c_opts c) s code a k brk g c HM HG H eq_refl Hn) as (c' & n0 & K).
  exists n0. intros n Hle. exists c'. exact (K n Hle).
Qed.
(** so a text is malformed in one way only *)
Theorem C55_one_report : forall o s code a k code' a' k',
  malformed o s code a k -> malformed o s code' a' k' -> code = code' /\ a = a' /\ k = k'.
Proof.
  intros o s code a k code' a' k' H1 H2. set (c := mkctx s o 0 (-1) TEnd 0 0 VNil 0 [] []).
  assert (HA : at_ c ([] ++ s)) by (exists []; split; reflexivity).
  destruct (@malformed_fails o s code a k false [] c H1 gap_nil HA eq_refl eq_refl) as (c1 & n1 & K1).
  destruct (@malformed_fails o s code' a' k' false [] c H2 gap_nil HA eq_refl eq_refl) as (c2 & n2 & K2).
  specialize (K1 (Nat.max n1 n2) ltac:(lia)). specialize (K2 (Nat.max n1 n2) ltac:(lia)). cbv beta in K1, K2. rewrite K1 in K2. inversion K2. repeat split; auto; lia.
Qed.
Definition no_letters (_ : Z) : bool := false.
Definition plainly : opts := mkopts false true true false false true no_letters.
(** after a comment: [$a::B], [09], ["a\u12z"], and a block comment that is not closed *)
Example C55_case : gap true (lit "# c" ++ [10]) /\ malformed plainly (lit "$a::B") LEX_INVALID_VARIABLE_NAME [] 0
  /\ malformed plainly (lit "09 ") LEX_OCTALDIGIT_EXPECTED [] 1
  /\ malformed plainly (""""%ch :: lit "a\u12z") LEX_MALFORMED_UNICODE_ESCAPE [] 2
  /\ malformed plainly (lit "/* a *") LEX_UNTERMINATED_COMMENT [] 0.
Proof.
  assert (A : forall r, 0 < r < 128 -> rune_ok r) by (intros r Hr; unfold rune_ok, valid_rune; lia).
  assert (B : forall r s, 0 < r < 128 -> begins (r :: s) r).
  { intros r s Hr. replace (r :: s) with (encode_rune r ++ s) by (unfold encode_rune, valid_rune, encode_rune_raw; replace (_ || _) with true by lia; destruct (Z.ltb_spec r 128); [reflexivity|lia]). constructor. now apply A. }
  split; [apply (@gap_line false [32; 99] []); [repeat constructor; apply A; lia|cbn; intuition lia|constructor]|].
  split; [apply (@mf_variable _ (lit "a") [] (lit "B") "B"%ch); [constructor; [vm_compute; intuition discriminate|constructor]|now left|apply B; lia|vm_compute; intuition congruence|discriminate]|].
  split; [apply (@mf_octal _ [] (lit "9 ") "9"%ch); [constructor|apply B; lia|auto|intros _; vm_compute; intuition discriminate]|].
  split; [apply (@mf_unicode _ ["a"%ch] ["a"%ch] [1; 2] ["1"%ch; "2"%ch] (lit "z") "z"%ch)|].
  - reflexivity.
  - apply dq_plain; [apply A; lia|discriminate|discriminate|discriminate|constructor].
  - constructor; [left; split; [lia|reflexivity]|constructor; [left; split; [lia|reflexivity]|constructor]].
  - cbn. lia.
  - apply B. lia.
  - intros (d & H). unfold hex_char in H. change "z"%ch with 122 in H. lia.
  - discriminate.
  - apply (@mf_comment _ [32; 97; 32; 42] []); [repeat constructor; apply A; lia| |constructor].
    intros (a & b & E). cbn in E. destruct a as [|? [|? [|? [|? [|? a]]]]]; inversion E.
Qed.
Print Assumptions C55_parse_reports.
Print Assumptions C55_next_token_reports.
Print Assumptions C55_one_report.

(** ** C27: without HandleBacktickStrings a backtick is an unexpected token *)
Theorem C27_backtick_is_unexpected : forall parser single brk before after,
  o_epp (c_opts parser) = false -> o_backtick (c_opts parser) = false -> gap brk before ->
  exists enough, forall fuel, (enough <= fuel)%nat ->
    to_presult (parse_run fuel parser (before ++ "`"%ch :: after) single)
    = PReported (Issue LEX_UNEXPECTED_TOKEN [("token"%string, lit "`")] (zlen before)).
Proof.
  intros c single brk g s He Hb HG. rewrite <- (Z.add_0_r (zlen g)). eapply C55_parse_reports; [reflexivity|exact He|exact HG|]. now apply mf_no_backticks.
Qed.
Theorem C27_backtick_is_unexpected_later : forall lexer brk before after,
  (exists read, c_text lexer = read ++ before ++ "`"%ch :: after /\ c_pos lexer = zlen read) -> c_nls lexer = -1 ->
  o_backtick (c_opts lexer) = false -> gap brk before ->
  exists enough, forall fuel, (enough <= fuel)%nat ->
    exists lexer', run fuel FNextToken lexer = Err (Issue LEX_UNEXPECTED_TOKEN [("token"%string, lit "`")] (c_pos lexer + zlen before)) lexer'.
Proof.
  intros c brk g s H Hn Hb HG. rewrite <- (Z.add_0_r (c_pos c + zlen g)). eapply C55_next_token_reports; [exact H|exact Hn|exact HG|]. now apply mf_no_backticks.
Qed.
Print Assumptions C27_backtick_is_unexpected.
Print Assumptions C27_backtick_is_unexpected_later.
