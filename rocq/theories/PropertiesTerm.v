(** * PropertiesTerm: Parse ends (C15), and its errors are located in the
    source (C22)

    The source is any byte string, the options and the state of the parser are
    any ([parser_state]: what any history of calls, failed or not, leaves). *)
From Verif Require Import Base Float Tokens Ast Ctx Locator Lexer Parser Utf8Facts SpecReader LocatorProof FuelMono SpecParse PosBase PosTop.
From Coq Require Import Lia ZifyBool.

(** ** C15.  [parse_run]'s fuel is the depth of the calls that are not loops of
    their own; [Fuel] is the outcome of a run that went deeper.  With a depth
    that is quadratic in the length of the source the outcome is never [Fuel],
    and it is one outcome: a result, an issue, a parse error or a panic. *)
Definition depth (source : str) : Z := 300 * ((zlen source + 3) * (zlen source + 3)).
Theorem C15_parse_terminates : forall o c source single,
  parser_state o c ->
  exists r, r <> Fuel /\ forall fuel, depth source <= Z.of_nat fuel -> parse_run fuel c source single = r.
Proof.
  intros o c source single H. apply state_bol in H.
  assert (NF: forall fuel, depth source <= Z.of_nat fuel -> parse_run fuel c source single <> Fuel).
  { intros fuel Hf E. pose proof (@run_ok fuel c source single H) as K. rewrite E in K. pose proof (@BX_top source) as B. unfold depth in Hf. lia. }
  assert (0 <= depth source) as D by (unfold depth; pose proof (zlen_nonneg source); nia).
  exists (parse_run (Z.to_nat (depth source)) c source single). split; [apply NF; lia|].
  intros fuel Hf. apply parse_run_mono; [lia|apply NF; lia].
Qed.
(** Nothing the parser has done before and no option makes it end otherwise:
    the fuel a run needs does not depend on either. *)
Example C15_case : parser_state (mkopts true false false false true true (fun _ => false)) (createParser (mkopts true false false false true true (fun _ => false))).
Proof. constructor. Qed.
(** and fuel is spent: with too little of it there is no outcome *)
Example C15_needs_depth : parse_run 5 (createParser (mkopts false false false false false true (fun _ => false))) (lit "[[1]]") false = Fuel.
Proof. vm_compute. reflexivity. Qed.

(** ** C22 *)
Theorem C22_offset_in_source : forall o c fuel source single code args off c',
  parser_state o c -> parse_run fuel c source single = Err (Issue code args off) c' ->
  0 <= off <= zlen source + 1.
Proof. intros o c fuel source single code args off c' H E. apply state_bol in H. pose proof (@run_ok fuel c source single H) as K. rewrite E in K. apply K. Qed.
Theorem C22_invalid_text_offset_in_source : forall o c fuel source single off c',
  parser_state o c -> parse_run fuel c source single = Err (ParseErr off) c' ->
  0 <= off <= zlen source + 1.
Proof. intros o c fuel source single off c' H E. apply state_bol in H. pose proof (@run_ok fuel c source single H) as K. rewrite E in K. apply K. Qed.
(** the one kind of issue that is made with a line and a column *)
Theorem C22_line_and_column : forall o c fuel source single code line col c',
  parser_state o c -> parse_run fuel c source single = Err (IssueAt code line col) c' ->
  1 <= line <= 1 + newlines source /\ 1 <= col <= zlen source + 1.
Proof.
  intros o c fuel source single code line col c' H E. apply state_bol in H. pose proof (@run_ok fuel c source single H) as K. rewrite E in K.
  destruct K as (_ & _ & off & K1 & K2). eapply located; eauto.
Qed.
(** asking for the line and the column of such an offset is safe *)
Theorem C22_offset_has_line_and_column : forall rs off, plain_text rs ->
  0 <= off <= zlen (encode rs) + 1 ->
  exists line col, lineForOffset (encode rs) off = inl line /\ posOnLine (encode rs) off = inl col /\
    1 <= line <= 1 + newlines (encode rs) /\ 1 <= col <= zlen (encode rs) + 1.
Proof.
  intros rs off H Ho. destruct (@can_locate (encode rs) off _ (getLineIndex_encode H) ltac:(lia)) as (l & k & E1 & E2).
  exists l, k. split; [exact E1|]. split; [exact E2|]. eapply located; eassumption.
Qed.
Example C22_case : let o := mkopts false false false false false true (fun _ => false) in
  exists c', parse_run 50 (createParser o) (lit "'abc") false = Err (Issue LEX_UNTERMINATED_STRING [("string_type"%string, lit "single")] 0) c'.
Proof. eexists. vm_compute. reflexivity. Qed.
(** the bound is reached: one past the end of the source *)
Example C22_bound_reached : let o := mkopts false false false false false true (fun _ => false) in
  let source := (lit "f(@(X)" ++ [10] ++ lit "a" ++ [10] ++ lit "X") in
  exists code args c', parse_run 50 (createParser o) source false = Err (Issue code args (zlen source + 1)) c'.
Proof. eexists _, _, _. vm_compute. reflexivity. Qed.
