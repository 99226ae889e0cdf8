(** * PropertiesGrammar: what sources mean (C07-C10, C12-C14, C23-C25, C42, C44, C47)

    Stated with SpecLex.v (tokens), SpecGrammar.v (the grammar), SpecManifest.v
    and SpecOps.v.  [manifests o]: no EPP.  [parses o source
    single e]: a new parser with the options [o] returns, for all sufficiently
    large fuel, a tree that is [e] but for the positions.  [whole single e]: the
    result for a source that is the one expression [e]. *)
From Verif Require Import Base Float Tokens Ast Ctx Lexer Parser Api Conform SpecLex SpecGrammar SpecManifest SpecOps.
From Verif Require Import GrammarTop GrammarSpace GrammarUse GrammarOps GrammarCalls.
From Coq Require Import Lia ZifyBool.

Definition puppet : opts := mkopts false false false false false true no_letter.

(** ** C47 *)
Theorem C47_manifests_are_parsed : forall o source statements,
  manifests o -> manifest o source statements -> parses o source false (program statements).
Proof. intros o source out HP HM. exact (manifest_parses HP HM). Qed.
Theorem C47_expressions_are_parsed : forall o source e,
  manifests o -> expression o source e -> parses o source true e.
Proof. intros o source e HP HE. exact (expression_parses HP HE). Qed.
(** so a source has at most one reading *)
Theorem C47_grammar_is_unambiguous : forall o source statements1 statements2,
  manifests o -> manifest o source statements1 -> manifest o source statements2 -> statements1 = statements2.
Proof.
  intros o source s1 s2 HP H1 H2. pose proof (parses_unique (manifest_parses HP H1) (manifest_parses HP H2)) as E. unfold program in E. congruence.
Qed.

(** ** C07 *)
Theorem C07_single_quoted : forall o single brk before after rs,
  manifests o -> gap brk before -> end_gap after -> Forall rune_ok rs ->
  parses o (before ++ "'"%ch :: encode (in_single_quotes rs) ++ "'"%ch :: after) single (whole single (EString z (encode rs))).
Proof.
  intros o single brk g1 g2 rs HP H1 H2 HR. replace (g1 ++ "'"%ch :: encode (in_single_quotes rs) ++ "'"%ch :: g2)
    with (g1 ++ ("'"%ch :: encode (in_single_quotes rs) ++ ["'"%ch]) ++ g2) by (cbn [app]; rewrite <- app_assoc; reflexivity).
  eapply one_token with (t := TString) (brk := brk) (r := 0); try exact HP; eauto; try discriminate; try exact Logic.I; try reflexivity; try no_name.
  - apply tt_single. apply sq_in_single_quotes. exact HR.
  - apply a_string; reflexivity.
  - split; [intros []|reflexivity].
Qed.
(** and any other way to write it: a backslash before another character stays *)
Theorem C07_any_single_quoted : forall o single brk before after src rs,
  manifests o -> gap brk before -> end_gap after -> sq src rs ->
  parses o (before ++ "'"%ch :: encode src ++ "'"%ch :: after) single (whole single (EString z (encode rs))).
Proof.
  intros o single brk g1 g2 src rs HP H1 H2 HR. replace (g1 ++ "'"%ch :: encode src ++ "'"%ch :: g2)
    with (g1 ++ ("'"%ch :: encode src ++ ["'"%ch]) ++ g2) by (cbn [app]; rewrite <- app_assoc; reflexivity).
  eapply one_token with (t := TString) (brk := brk) (r := 0); try exact HP; eauto; try discriminate; try exact Logic.I; try reflexivity; try no_name.
  - apply tt_single. exact HR.
  - apply a_string; reflexivity.
  - split; [intros []|reflexivity].
Qed.
(** it's \ and an euro sign, after a comment *)
Example C07_case : manifests puppet /\ gap true (lit "# c" ++ [10]) /\ end_gap (lit " ") /\ Forall rune_ok [105; 39; 92; 8364]
  /\ encode (in_single_quotes [105; 39; 92; 8364]) = lit "i\'\\" ++ [226; 130; 172].
Proof.
  split; [repeat split|]. split; [apply (@gap_line false [32; 99] []); [repeat constructor; unfold rune_ok; cbn; intuition (try discriminate; lia)|cbn; intuition lia|constructor]|].
  split; [apply (@end_plain false); repeat constructor|]. split; [repeat constructor; unfold rune_ok; cbn; intuition (try discriminate; lia)|vm_compute; reflexivity].
Qed.
Print Assumptions C07_single_quoted.
Print Assumptions C07_any_single_quoted.

(** ** C08 *)
(** every text: [in_double_quotes] writes NUL and U+FFFD as escapes too *)
Theorem C08_double_quoted : forall o single brk before after rs,
  manifests o -> gap brk before -> end_gap after -> Forall (fun r => valid_rune r = true) rs ->
  parses o (before ++ """"%ch :: encode (in_double_quotes rs) ++ """"%ch :: after) single (whole single (EString z (encode rs))).
Proof.
  intros o single brk g1 g2 rs HP H1 H2 HR. replace (g1 ++ """"%ch :: encode (in_double_quotes rs) ++ """"%ch :: g2)
    with (g1 ++ (""""%ch :: encode (in_double_quotes rs) ++ [""""%ch]) ++ g2) by (cbn [app]; rewrite <- app_assoc; reflexivity).
  eapply one_token with (t := TString) (brk := brk) (r := 0); try exact HP; eauto; try discriminate; try exact Logic.I; try reflexivity; try no_name.
  - apply tt_double. apply dq_in_double_quotes. exact HR.
  - apply a_string; reflexivity.
  - split; [intros []|reflexivity].
Qed.
Theorem C08_any_double_quoted : forall o single brk before after src rs,
  manifests o -> gap brk before -> end_gap after -> dq (o_hex o) src rs ->
  parses o (before ++ """"%ch :: encode src ++ """"%ch :: after) single (whole single (EString z (encode rs))).
Proof.
  intros o single brk g1 g2 src rs HP H1 H2 HR. replace (g1 ++ """"%ch :: encode src ++ """"%ch :: g2)
    with (g1 ++ (""""%ch :: encode src ++ [""""%ch]) ++ g2) by (cbn [app]; rewrite <- app_assoc; reflexivity).
  eapply one_token with (t := TString) (brk := brk) (r := 0); try exact HP; eauto; try discriminate; try exact Logic.I; try reflexivity; try no_name.
  - apply tt_double. exact HR.
  - apply a_string; reflexivity.
  - split; [intros []|reflexivity].
Qed.
Example C08_case : Forall (fun r => valid_rune r = true) [97; 34; 36; 10; 0; 65533; 128512]
  /\ encode (in_double_quotes [97; 34; 36; 10; 0; 65533; 128512]) = lit "a\""\$\n\u{000000}\u{00fffd}" ++ [240; 159; 152; 128].
Proof. split; [repeat constructor|vm_compute; reflexivity]. Qed.
Print Assumptions C08_double_quoted.
Print Assumptions C08_any_double_quoted.

(** ** C09 *)
Theorem C09_decimal : forall o single brk before after n,
  manifests o -> gap brk before -> end_gap after -> 0 <= n < 2 ^ 63 ->
  parses o (before ++ decimal_text n ++ after) single (whole single (EInt z 10 n)).
Proof.
  intros o single brk g1 g2 n HP H1 H2 HN.
  eapply one_token with (t := TInteger) (brk := brk) (r := 10); try exact HP; eauto; try discriminate; try exact Logic.I; try reflexivity; try no_name.
  - apply decimal_token. exact HN.
  - apply (@a_int _ [] (mktk g1 brk TInteger (VInt n) 10 (decimal_text n))); reflexivity.
  - split; [intros []|reflexivity].
Qed.
Lemma decimal_first n : 0 <= n < 2 ^ 63 -> digit (first_byte (decimal_text n)).
Proof.
  intros H. destruct (@digits_of_spec 20 n) as (H1 & H2 & H3 & H4); [change (10 ^ Z.of_nat 20) with 100000000000000000000; lia|lia|].
  unfold decimal_text, decimals. destruct (digits_of 20 n) as [|d l]; [congruence|]. cbn. inversion H2; subst. unfold digit. lia.
Qed.
Theorem C09_negative : forall o single brk before after n,
  manifests o -> gap brk before -> end_gap after -> 0 <= n < 2 ^ 63 ->
  parses o (before ++ "-"%ch :: decimal_text n ++ after) single (whole single (EInt z 10 (- n))).
Proof.
  intros o single brk g1 g2 n HP H1 H2 HN.
  set (k1 := mktk g1 brk TSubtract VNil 0 (lit "-")). set (k2 := mktk [] false TInteger (VInt n) 10 (decimal_text n)). set (k3 := mktk g2 false TEnd VNil 0 []).
  replace (g1 ++ "-"%ch :: decimal_text n ++ g2) with (render ([k1; k2] ++ [k3])) by (unfold render; cbn [app flat_map k_gap k_txt k1 k2 k3]; rewrite !app_nil_r, <- !app_assoc; reflexivity).
  pose proof (decimal_first HN) as HD. apply both_modes with (n := 0%nat); [exact HP| |reflexivity| |split; [intros []|reflexivity]].
  - cbn [app stream k_tok k_val k_radix k_txt k_gap k_brk k1 k2 k3]. unfold render. cbn [flat_map k_gap k_txt app k2 k3]. rewrite !app_nil_r.
    split; [apply wr_token; [apply (tt_punct o); vm_compute; tauto|discriminate]|]. split; [left; exact H1|]. split; [exact Logic.I|]. split; [|split; [discriminate|split; [discriminate|]]].
    + cbn [clash]. unfold one_of. intros X. destruct (decimal_text n) as [|b l]; [cbn in HD; unfold digit in HD; lia|]. cbn in X, HD. unfold digit in HD. destruct X as [X|[X|[]]]; lia.
    + split; [apply wr_token; [apply decimal_token; exact HN|discriminate]|]. split; [left; constructor|]. split; [exact Logic.I|]. split; [apply quiet_end; [exact H2|discriminate]|]. split; [discriminate|]. split; [discriminate|].
      split; [apply wr_token; [constructor|reflexivity]|]. split; [right; auto|]. split; [exact Logic.I|]. split; [intros []|]. split; [discriminate|]. auto.
  - apply op_rel; [|no_name]. apply (@up_ops _ [] _ _ 0); [|lia|lia]. apply o_unary. eapply u_negative_int; try reflexivity; [exact HD|]. apply (@p_chain _ [] _ (EInt z 10 (- n))), ch_atom.
    apply (@a_int _ [] (negate k2 (VInt (- n)))); reflexivity.
Qed.
Example C09_case : 0 <= 9223372036854775807 < 2 ^ 63 /\ decimal_text 9223372036854775807 = lit "9223372036854775807" /\ decimal_text 0 = lit "0".
Proof. split; [lia|]. split; vm_compute; reflexivity. Qed.
Print Assumptions C09_decimal.
Print Assumptions C09_negative.

(** ** C10 *)
Theorem C10_hexadecimal : forall o single brk before after x ds cs,
  manifests o -> gap brk before -> end_gap after -> x = "x"%ch \/ x = "X"%ch -> ds <> [] -> Forall2 hex_char ds cs -> value 16 ds < 2 ^ 63 ->
  parses o (before ++ ("0"%ch :: x :: cs) ++ after) single (whole single (EInt z 16 (value 16 ds))).
Proof.
  intros o single brk g1 g2 x ds cs HP H1 H2 Hx Hd HF HV.
  eapply one_token with (t := TInteger) (brk := brk) (r := 16) (v := VInt (value 16 ds)); try exact HP; eauto; try discriminate; try exact Logic.I; try reflexivity; try no_name.
  - apply tt_hex; assumption.
  - apply (@a_int _ [] (mktk g1 brk TInteger (VInt (value 16 ds)) 16 ("0"%ch :: x :: cs))); reflexivity.
  - split; [intros []|reflexivity].
Qed.
Theorem C10_octal : forall o single brk before after ds,
  manifests o -> gap brk before -> end_gap after -> ds <> [] -> Forall (fun d => 0 <= d <= 7) ds -> value 8 ds < 2 ^ 63 ->
  parses o (before ++ ("0"%ch :: decimals ds) ++ after) single (whole single (EInt z 8 (value 8 ds))).
Proof.
  intros o single brk g1 g2 ds HP H1 H2 Hd HF HV.
  eapply one_token with (t := TInteger) (brk := brk) (r := 8) (v := VInt (value 8 ds)); try exact HP; eauto; try discriminate; try exact Logic.I; try reflexivity; try no_name.
  - apply tt_octal; assumption.
  - apply (@a_int _ [] (mktk g1 brk TInteger (VInt (value 8 ds)) 8 ("0"%ch :: decimals ds))); reflexivity.
  - split; [intros []|reflexivity].
Qed.
Example C10_case : Forall2 hex_char [0; 10; 15; 7] (lit "0aF7") /\ value 16 [0; 10; 15; 7] = 2807 /\ decimals [0; 6; 4; 4] = lit "0644" /\ value 8 [0; 6; 4; 4] = 420.
Proof. split; [repeat constructor; unfold hex_char; cbn; lia|repeat split]. Qed.
Print Assumptions C10_hexadecimal.
Print Assumptions C10_octal.

(** ** C11 *)
(** The full property is: an integer, a sign and another integer are a sum or a
    difference.  It is false: a sign directly after the first digit is taken for
    a part of the number, and the number is 0. *)
Theorem C11_refuted : exists q c',
  parse_run conf_fuel (createParser puppet) (lit "1-2") true = Ok (EInt q 10 0) c'.
Proof. eexists _, _. vm_compute. reflexivity. Qed.
Lemma decimal_long n : 10 <= n < 2 ^ 63 -> ~ exists d, decimal_text n = [d].
Proof.
  intros H (d & E). destruct (@digits_of_spec 20 n) as (H1 & H2 & H3 & H4); [change (10 ^ Z.of_nat 20) with 100000000000000000000; lia|lia|].
  unfold decimal_text, decimals in E. destruct (digits_of 20 n) as [|x [|y l]]; [congruence| |discriminate E].
  unfold value in H1. cbn in H1. inversion H2; subst. lia.
Qed.
(** Proved: whenever the first integer is 0 or has two digits or more, or a
    blank or comment is before the sign, whatever is after the sign. *)
Theorem C11_sums_partial : forall o single brk before brk1 g1 plus brk2 g2 after a b,
  manifests o -> gap brk before -> gap brk1 g1 -> gap brk2 g2 -> end_gap after -> 0 <= a < 2 ^ 63 -> 0 <= b < 2 ^ 63 ->
  a = 0 \/ 10 <= a \/ g1 <> [] ->
  let op := if plus : bool then lit "+" else lit "-" in
  parses o (before ++ decimal_text a ++ g1 ++ op ++ g2 ++ decimal_text b ++ after) single
    (whole single (EBin z KArithmetic op (EInt z 10 a) (EInt z 10 b))).
Proof.
  intros o single brk g0 brk1 g1 plus brk2 g2 g3 a b HP H0 H1 H2 H3 HA HB HC op.
  set (k1 := mktk g0 brk TInteger (VInt a) 10 (decimal_text a)). set (k2 := mktk g1 brk1 (if plus then TAdd else TSubtract) VNil 0 op).
  set (k3 := mktk g2 brk2 TInteger (VInt b) 10 (decimal_text b)). set (k4 := mktk g3 false TEnd VNil 0 []).
  replace (g0 ++ decimal_text a ++ g1 ++ op ++ g2 ++ decimal_text b ++ g3) with (render ([k1; k2; k3] ++ [k4])) by (unfold render; cbn [app flat_map k_gap k_txt k1 k2 k3 k4]; rewrite !app_nil_r, <- !app_assoc; reflexivity).
  pose proof (decimal_first HB) as HD. 
  assert (HG: forall brk g s, gap brk g -> g = [] \/ In (first_byte (g ++ s)) [32; 9; 13; 10; "#"%ch; "/"%ch]).
  { intros brk' g s X. destruct X; cbn; auto; right; intuition congruence. }
  assert (HO: exists b0, op = [b0] /\ (b0 = "+"%ch \/ b0 = "-"%ch)) by (destruct plus; eexists; split; [reflexivity|auto|reflexivity|auto]). 
  apply both_modes with (n := 0%nat); [exact HP| |reflexivity| |split; [intros []|reflexivity]].
  - cbn [app stream k_tok k_val k_radix k_txt k_gap k_brk k1 k2 k3 k4]. unfold render. cbn [flat_map k_gap k_txt app k2 k3 k4]. rewrite !app_nil_r.
    split; [apply wr_token; [apply decimal_token; exact HA|discriminate]|]. split; [left; exact H0|]. split; [exact Logic.I|]. split; [|split; [discriminate|split; [discriminate|]]].
    { intros X. cbn [clash] in X. destruct HO as (b0 & EO & HO). rewrite EO, <- !app_assoc in X.
      destruct (HG brk1 g1 ([b0] ++ g2 ++ decimal_text b ++ g3) H1) as [-> | Y].
      - cbn [app first_byte] in X. unfold wordchar, lower, upper, digit, one_of in X. destruct X as [X|[X|[_ X]]].
        + destruct HO as [-> | ->]; cbn in X; lia.
        + destruct HO as [-> | ->]; discriminate X.
        + destruct X as (d & X & N). destruct HC as [-> | [HC|HC]]; [|apply (@decimal_long a); [lia|eauto]|congruence].
          change (decimal_text 0) with (lit "0") in X. injection X as <-. apply N. reflexivity.
      - unfold wordchar, lower, upper, digit, one_of in X. remember (first_byte _) as x eqn:Ex in X, Y. clear - X Y.
        cbn in X, Y. destruct Y as [<-|[<-|[<-|[<-|[<-|[<-|[]]]]]]]; intuition (try discriminate; try lia). }
    split; [apply wr_token; [destruct plus; apply (tt_punct o); vm_compute; tauto|destruct plus; discriminate]|]. split; [left; exact H1|]. split; [destruct plus; exact Logic.I|]. split; [|split; [destruct plus; discriminate|split; [destruct plus; discriminate|]]].
    { intros X. assert (Y: one_of (first_byte (g2 ++ decimal_text b ++ g3)) "=>%") by (rewrite <- app_assoc in X; destruct plus; cbn [clash op_tok] in X; [destruct X as [X|[X|[]]]|destruct X as [X|[X|[X|[]]]]]; unfold one_of; rewrite <- X; vm_compute; auto).
      destruct (HG brk2 g2 (decimal_text b ++ g3) H2) as [-> | Z].
      - cbn [app] in Y. destruct (decimal_text b) as [|d l]; [cbn in HD; unfold digit in HD; lia|]. cbn in Y, HD. unfold digit in HD. destruct Y as [Y|[Y|[Y|[]]]]; lia.
      - unfold one_of in Y. remember (first_byte _) as x eqn:Ex in Y, Z. clear - Z Y. cbn in Z, Y. destruct Z as [<-|[<-|[<-|[<-|[<-|[<-|[]]]]]]]; intuition (try discriminate; try lia). }
    split; [apply wr_token; [apply decimal_token; exact HB|discriminate]|]. split; [left; exact H2|]. split; [exact Logic.I|]. split; [apply quiet_end; [exact H3|discriminate]|]. split; [discriminate|]. split; [discriminate|].
    split; [apply wr_token; [constructor|reflexivity]|]. split; [right; auto|]. split; [exact Logic.I|]. split; [intros []|]. split; [discriminate|]. auto.
  - apply op_rel; [|no_name]. apply (@up_ops _ [] _ _ 4); [|lia|lia]. replace op with (lit (if plus then "+" else "-")%string) by (destruct plus; reflexivity).
    apply (@o_bin _ [] 3 k2 KArithmetic _ [k1] (EInt z 10 a) [k3] (EInt z 10 b)); [destruct plus; cbn; tauto| | |reflexivity].
    + apply atom_op; [|reflexivity|lia]. apply (@a_int _ [] k1); reflexivity.
    + apply atom_op; [|reflexivity|lia]. apply (@a_int _ [] k3); reflexivity.
Qed.
Example C11_case : gap false (lit " ") /\ gap false [] /\ end_gap (lit "") /\ decimal_text 12 = lit "12".
Proof. split; [apply gap_blank; [auto|constructor]|]. split; [constructor|]. split; [apply (@end_plain false); constructor|reflexivity]. Qed.
Print Assumptions C11_sums_partial.

(** ** C12 *)
Theorem C12_names : forall o single brk before after w,
  manifests o -> gap brk before -> end_gap after -> qualified lower w -> ~ In w (map lit reserved_words) -> (o_workflow o = true -> ~ In w (map lit ["action"; "resource"; "stateHandler"; "workflow"]%string)) ->
  parses o (before ++ w ++ after) single (whole single (EQName z w)).
Proof.
  intros o single brk g1 g2 w HP H1 H2 Hw Hr Hs.
  eapply one_token with (t := TIdentifier) (brk := brk) (r := 0); try exact HP; eauto; try discriminate; try exact Logic.I; try reflexivity; try no_name.
  - apply tt_name; assumption.
  - apply a_name; reflexivity.
  - split; [intros []|reflexivity].
  - intros Hk (w1 & s & HI & X). apply (Hs Hk). injection X as ->. apply (in_map (fun p => lit (fst p))) in HI. exact HI.
Qed.
Theorem C12_global_names : forall o single brk before after w,
  manifests o -> gap brk before -> end_gap after -> qualified lower w ->
  parses o (before ++ (lit "::" ++ w) ++ after) single (whole single (EQName z (lit "::" ++ w))).
Proof.
  intros o single brk g1 g2 w HP H1 H2 Hw.
  eapply one_token with (t := TIdentifier) (brk := brk) (r := 0); try exact HP; eauto; try discriminate; try exact Logic.I; try reflexivity; try no_name.
  - apply tt_global_name; assumption.
  - apply a_name; reflexivity.
  - split; [intros []|reflexivity].
Qed.
Theorem C12_plan_is_a_name_without_tasks : forall o single brk before after,
  manifests o -> o_tasks o = false -> gap brk before -> end_gap after ->
  parses o (before ++ lit "plan" ++ after) single (whole single (EQName z (lit "plan"))).
Proof.
  intros o single brk g1 g2 HP Ht H1 H2.
  eapply one_token with (t := TIdentifier) (brk := brk) (r := 0); try exact HP; eauto; try discriminate; try exact Logic.I; try reflexivity; try no_name.
  - pose proof (tt_plan o 0) as X. rewrite Ht in X. exact X.
  - apply a_name; reflexivity.
  - split; [intros []|reflexivity].
Qed.
Theorem C12_types : forall o single brk before after root w,
  manifests o -> gap brk before -> end_gap after -> qualified upper w -> root = [] \/ root = lit "::" ->
  parses o (before ++ (root ++ w) ++ after) single (whole single (EQRef z (root ++ w))).
Proof.
  intros o single brk g1 g2 root w HP H1 H2 Hw Hr.
  eapply one_token with (t := TTypeName) (brk := brk) (r := 0); try exact HP; eauto; try discriminate; try exact Logic.I; try reflexivity; try no_name.
  - destruct Hr as [-> | ->]; [apply tt_type|apply tt_global_type]; assumption.
  - apply a_type; reflexivity.
  - split; [intros []|reflexivity].
Qed.
(** the words with a value of their own *)
Theorem C12_constants : forall o single brk before after w e,
  manifests o -> gap brk before -> end_gap after -> In (w, e) [("true", EBool z true); ("false", EBool z false); ("default", EDefault z); ("undef", EUndef z)]%string ->
  parses o (before ++ lit w ++ after) single (whole single e).
Proof.
  intros o single brk g1 g2 w e HP H1 H2 HI. cbn [In] in HI. destruct HI as [HI|[HI|[HI|[HI|[]]]]]; injection HI as <- <-.
  - eapply one_token with (t := TBoolean) (brk := brk) (r := 0); try exact HP; eauto; try discriminate; try exact Logic.I; try reflexivity; try no_name; [apply tt_true|apply a_bool; reflexivity|split; [intros []|reflexivity]].
  - eapply one_token with (t := TBoolean) (brk := brk) (r := 0); try exact HP; eauto; try discriminate; try exact Logic.I; try reflexivity; try no_name; [apply tt_false|apply a_bool; reflexivity|split; [intros []|reflexivity]].
  - eapply one_token with (t := TDefault) (brk := brk) (r := 0); try exact HP; eauto; try discriminate; try exact Logic.I; try reflexivity; try no_name; [apply tt_default|apply a_default; reflexivity|split; [intros []|reflexivity]].
  - eapply one_token with (t := TUndef) (brk := brk) (r := 0); try exact HP; eauto; try discriminate; try exact Logic.I; try reflexivity; try no_name; [apply (tt_reserved o); vm_compute; tauto|apply a_undef; reflexivity|split; [intros []|reflexivity]].
Qed.
(** and no reserved word is a name (plan: when tasks are enabled), except that
    type alone is *)
Theorem C12_reserved_words : forall o w fuel single e,
  manifests o -> In w reserved_words -> w <> "type"%string -> (w = "plan"%string -> o_tasks o = true) ->
  parse fuel o (lit w) single = POk e -> strip e <> whole single (EQName z (lit w)).
Proof.
  intros [ep hx bt tk wf fa isL] w n single e (H1 & H2) HI HT HP. cbn in H1, H2. subst. cbn [o_tasks] in HP.
  unfold reserved_words, reserved in HI. cbn [In map fst] in HI.
  repeat (destruct HI as [<-|HI]; [try (exfalso; apply HT; reflexivity); try (rewrite (HP eq_refl) in *); clear HT HP; destruct single, wf;
    (eapply not_name with (m := 100%nat); [vm_compute; reflexivity|discriminate|intros ? E'; first [discriminate E'|injection E' as <-; discriminate]])|]).
  destruct HI.
Qed.
Print Assumptions C12_reserved_words.
Example C12_case : qualified lower (lit "foo::b_1") /\ ~ In (lit "foo::b_1") (map lit reserved_words) /\ qualified upper (lit "Foo::Bar").
Proof.
  split; [apply (@q_more lower 102 (lit "oo") (lit "b_1"))|split; [vm_compute; intuition discriminate|apply (@q_more upper 70 (lit "oo") (lit "Bar"))]];
  try (apply q_one); unfold lower, upper; try (cbn; lia); repeat constructor; unfold wordchar, lower, upper, digit; cbn; auto; lia.
Qed.
Print Assumptions C12_names.
Print Assumptions C12_global_names.
Print Assumptions C12_plan_is_a_name_without_tasks.
Print Assumptions C12_types.
Print Assumptions C12_constants.

(** ** C13 *)
Theorem C13_variables : forall o single brk before after root w,
  manifests o -> gap brk before -> end_gap after -> qualified lower w -> root = [] \/ root = lit "::" ->
  parses o (before ++ ("$"%ch :: root ++ w) ++ after) single (whole single (EUn z KVariable (EQName z (root ++ w)))).
Proof.
  intros o single brk g1 g2 root w HP H1 H2 Hw Hr.
  eapply one_token with (t := TVariable) (brk := brk) (r := 0) (v := VStr (root ++ w)); try exact HP; eauto; try discriminate; try exact Logic.I; try reflexivity; try no_name.
  - destruct Hr as [-> | ->]; [apply tt_var|apply tt_global_var]; assumption.
  - apply a_var; reflexivity.
  - split; [intros []|reflexivity].
Qed.
Theorem C13_numbered_variables : forall o single brk before after ds,
  manifests o -> gap brk before -> end_gap after -> ds <> [] -> Forall (fun d => 0 <= d <= 9) ds -> value 10 ds < 2 ^ 63 ->
  parses o (before ++ ("$"%ch :: decimals ds) ++ after) single (whole single (EUn z KVariable (EInt z 10 (value 10 ds)))).
Proof.
  intros o single brk g1 g2 ds HP H1 H2 Hd HF HV.
  eapply one_token with (t := TVariable) (brk := brk) (r := 0) (v := VInt (value 10 ds)); try exact HP; eauto; try discriminate; try exact Logic.I; try reflexivity; try no_name.
  - apply tt_numeric_var; assumption.
  - apply a_numvar; reflexivity.
  - split; [intros []|reflexivity].
Qed.
Example C13_case : qualified lower (lit "a::b") /\ lit "$::a::b" = "$"%ch :: lit "::" ++ lit "a::b" /\ decimals [1; 2] = lit "12" /\ value 10 [1; 2] = 12.
Proof. split; [apply (@q_more lower 97 [] (lit "b")); [unfold lower; lia|constructor|apply q_one; [unfold lower; cbn; lia|constructor]]|repeat split]. Qed.
Print Assumptions C13_variables.
Print Assumptions C13_numbered_variables.

(** ** C42 *)
Theorem C42_regular_expressions : forall o single brk before after src rs,
  manifests o -> gap brk before -> end_gap after -> rx src rs -> hd 0 src <> "*"%ch ->
  parses o (before ++ ("/"%ch :: encode src ++ ["/"%ch]) ++ after) single (whole single (ERegexp z (encode rs))).
Proof.
  intros o single brk g1 g2 src rs HP H1 H2 HR Hh.
  eapply one_token with (t := TRegexp) (brk := brk) (r := 0) (v := VStr (encode rs)); try exact HP; eauto; try discriminate; try exact Logic.I; try reflexivity; try no_name.
  - apply tt_regexp; assumption.
  - apply a_regexp; reflexivity.
  - split; [intros []|reflexivity].
Qed.
Example C42_case : rx (lit "a\/b\.c") (lit "a/b\.c").
Proof. apply rx_plain; [apply rune_ok_ascii; cbn; lia|discriminate|discriminate|]. apply rx_slash. apply rx_plain; [apply rune_ok_ascii; cbn; lia|discriminate|discriminate|].
  apply rx_other; [apply rune_ok_ascii; cbn; lia|discriminate|]. apply rx_plain; [apply rune_ok_ascii; cbn; lia|discriminate|discriminate|]. constructor. Qed.
Print Assumptions C42_regular_expressions.

(** ** C23 *)
Theorem C23_operators : forall o single after t,
  manifests o -> legal t -> end_gap after ->
  exists e, parses o (written t ++ after) single (whole single e) /\ unparen e = tree_of t.
Proof. intros o single g t HP HL HG. exists (shown t). split; [exact (written_parses single HP HL HG)|exact (unparen_shown t)]. Qed.
(** and the parentheses that were written are kept as nodes, no others appear:
    without parentheses the tree is [tree_of t] itself *)
Theorem C23_no_parentheses : forall o single after t,
  manifests o -> legal t -> end_gap after -> ~ In (lit "(") (words t) ->
  parses o (written t ++ after) single (whole single (tree_of t)).
Proof.
  intros o single g t HP HL HG HN. replace (tree_of t) with (shown t); [exact (written_parses single HP HL HG)|].
  assert (X : forall b ws, ~ In (lit "(") (parens b ws) -> b = false /\ ~ In (lit "(") ws). { intros [|] ws H; [exfalso; apply H; now left|auto]. }
  clear HL HG. induction t as [w|n|a IH|a IH|a IH|n w k a IHa b IHb]; cbn [words] in HN; try reflexivity.
  1-3: cbn [shown tree_of]; match type of HN with ~ In _ (_ :: ?l) => assert (HN' : ~ In (lit "(") l) by (intros Y; apply HN; now right) end; apply X in HN'; destruct HN' as [-> HN']; cbn [shown_in]; rewrite IH by exact HN'; reflexivity.
  rewrite !in_app_iff in HN. cbn [shown tree_of]. destruct (X (n <? precedence a)%nat (words a)) as [-> Ha]; [tauto|]. destruct (X (n - 1 <? precedence b)%nat (words b)) as [-> Hb]; [tauto|].
  cbn [shown_in]. rewrite IHa, IHb by assumption. reflexivity.
Qed.
(** (1 - $a) * ! - $b == 2 or 3 in 4 *)
Definition C23_tree : optree :=
  OBin 9 "or" KOr (OBin 6 "==" KComparison (OBin 3 "*" KArithmetic (OBin 4 "-" KArithmetic (OInt 1) (OVar (lit "a"))) (ONot (OMinus (OVar (lit "b"))))) (OInt 2)) (OBin 1 "in" KIn (OInt 3) (OInt 4)).
Example C23_case : legal C23_tree /\ written C23_tree = lit "( 1 - $a ) * ! - $b == 2 or 3 in 4".
Proof.
  split; [|vm_compute; reflexivity]. assert (H : forall c, lower c -> qualified lower [c]) by (intros c Hc; apply q_one; [exact Hc|constructor]).
  unfold C23_tree. cbn [legal]. repeat split; try lia; try (vm_compute; tauto); apply H; unfold lower; cbn; lia.
Qed.
Print Assumptions C23_operators.
Print Assumptions C23_no_parentheses.

(** ** C14 *)
(** The same tokens with other white space and comments between them give the
    same tree, as long as they stay the same tokens ([stream], which has the
    rules for brackets and parentheses) *)
Theorem C14_space_does_not_matter : forall o n ts1 ts2 end1 end2 es out,
  manifests o -> stream o (top o n) None None (ts1 ++ [end1]) -> stream o (top o n) None None (ts2 ++ [end2]) -> k_tok end1 = TEnd -> k_tok end2 = TEnd ->
  respaced ts1 ts2 -> D (o_workflow o) [] Stmts ts1 es -> statements es out ->
  parses o (render (ts1 ++ [end1])) false (program out) /\ parses o (render (ts2 ++ [end2])) false (program out).
Proof.
  intros o n ts1 ts2 k1 k2 es out HP S1 S2 K1 K2 HR HD HS. split; apply manifest_parses; try exact HP; econstructor; eauto. eapply D_respaced; eauto.
Qed.

(** ** C24 *)
Theorem C24_nested_classes : forall o names after,
  manifests o -> Forall (fun w => qualified lower w /\ ~ In w (map lit reserved_words)) names -> names <> [] -> end_gap after ->
  parses o (join (lit " ") (nested names) ++ after) false (program (nest [] names)).
Proof. intros o names g HP HN Hne HG. exact (nested_parses HP HN Hne HG). Qed.
Example C24_nested_case : join (lit " ") (nested [lit "a"; lit "b::c"; lit "d"]) = lit "class a { class b::c { class d { } } }"
  /\ map (fun e => match e with EDef _ _ n _ _ => n | _ => [] end) (flat_map defs (nest [] [lit "a"; lit "b::c"; lit "d"])) = [lit "a::b::c::d"; lit "a::b::c"; lit "a"].
Proof. split; vm_compute; reflexivity. Qed.
Print Assumptions C24_nested_classes.

(** ** C25 *)
Theorem C25_statement_calls : forall o f t ts after,
  manifests o -> In f statement_functions -> Forall legal (t :: ts) -> begins_plain t -> end_gap after ->
  exists args, parses o (lit f ++ lit " " ++ comma_separated (t :: ts) ++ after) false (program [ECallNamed z false (EQName z (lit f)) args None])
    /\ map unparen args = map tree_of (t :: ts).
Proof.
  intros o f t ts g HP Hf HL HB HG. exists (map shown (t :: ts)). split; [exact (call_parses HP Hf HL HB HG)|]. rewrite map_map. apply map_ext. exact unparen_shown.
Qed.
(** in general: the statements of a manifest are those of the grammar, after
    statement calls have been put together as [statements] says *)
Theorem C25_statements : forall o n ts k es out,
  manifests o -> stream o (top o n) None None (ts ++ [k]) -> k_tok k = TEnd -> D (o_workflow o) [] Stmts ts es -> statements es out ->
  parses o (render (ts ++ [k])) false (program out).
Proof. intros o n ts k es out HP HS HK HD HC. apply manifest_parses; [exact HP|]. econstructor; eauto. Qed.
Example C25_case : Forall legal [OVar (lit "x"); OBin 4 "+" KArithmetic (OInt 1) (OInt 2)] /\ In "notice"%string statement_functions
  /\ lit "notice" ++ lit " " ++ comma_separated [OVar (lit "x"); OBin 4 "+" KArithmetic (OInt 1) (OInt 2)] = lit "notice $x , 1 + 2".
Proof.
  split; [|split; [vm_compute; tauto|vm_compute; reflexivity]]. constructor; [apply q_one; [unfold lower; cbn; lia|constructor]|]. constructor; [|constructor].
  cbn [legal]. split; [vm_compute; tauto|]. lia.
Qed.
Print Assumptions C25_statement_calls.
Print Assumptions C25_statements.

(** ** C44 *)
(** the elements of an array, or the arguments of a call of [f], as written in
    the grammar are [es]; what is in the tree is [l] *)
Theorem C44_arrays : forall o n open ts close k es l,
  manifests o -> stream o (top o n) None None ((open :: ts ++ [close]) ++ [k]) -> k_tok k = TEnd -> is TListstart open -> is TRb close ->
  D (o_workflow o) [] (ListOf Arg) ts es -> grouped es l -> forall single, parses o (render ((open :: ts ++ [close]) ++ [k])) single (whole single (EList z l)).
Proof.
  intros o n k1 ts k2 k es l HP HS HK H1 H2 HD HG. apply (@both_modes o HP n); [exact HS|exact HK| |split; [intros []|reflexivity]].
  apply op_rel; [|no_name]. apply atom_op; [|reflexivity|lia]. eapply a_list; eauto.
Qed.
Theorem C44_arguments : forall o n f name open ts close k es l,
  manifests o -> stream o (top o n) None None ((f :: open :: ts ++ [close]) ++ [k]) -> k_tok k = TEnd -> is TIdentifier f -> k_val f = VStr name -> is TLp open -> is TRp close ->
  D (o_workflow o) [] (ListOf Arg) ts es -> grouped es l ->
  parses o (render ((f :: open :: ts ++ [close]) ++ [k])) true (ECallNamed z true (EQName z name) l None).
Proof.
  intros o n f name k1 ts k2 k es l HP HS HK Hf Hn H1 H2 HD HG. apply expression_parses; [exact HP|]. econstructor; [exact HS|exact HK|].
  apply op_rel; [|no_name]. apply (@up_ops _ [] _ _ 0); [|lia|lia]. apply o_unary, u_primary. apply (@p_chain _ [] _ (call (EQName z name) l None)).
  change (f :: k1 :: ts ++ [k2]) with ([f] ++ k1 :: ts ++ [k2]). rewrite <- (app_nil_r (k1 :: ts ++ [k2])). eapply (@ch_call _ [] [f] (EQName z name) _ l [] []); [apply ch_atom, a_name; assumption| |constructor].
  eapply args_parens; eauto.
Qed.
(** [grouped] is defined for all lists, leaves no pair, and keeps everything *)
Theorem C44_no_pair_remains : forall es l, grouped es l -> Forall (fun e => ~ keyed e) l.
Proof. induction 1; constructor; auto. Qed.
Theorem C44_all_lists : forall es, exists l, grouped es l.
Proof.
  intros es. remember (List.length es) as n. assert (Hn : (List.length es <= n)%nat) by lia. clear Heqn. revert es Hn. induction n as [|n IH]; intros es Hn; [destruct es; [exists []; constructor|cbn in Hn; lia]|].
  destruct es as [|e es]; [exists []; constructor|]. cbn in Hn. assert (X : keyed e \/ ~ keyed e) by (destruct e; cbn; tauto). destruct X as [X|X].
  - assert (S : forall r, exists a b, r = a ++ b /\ Forall keyed a /\ match b with e :: _ => ~ keyed e | [] => True end).
    { induction r as [|y r (a & b & -> & Ha & Hb)]; [exists [], []; auto|]. assert (Y : keyed y \/ ~ keyed y) by (destruct y; cbn; tauto). destruct Y as [Y|Y]; [exists (y :: a), b|exists [], (y :: a ++ b)]; auto. }
    destruct (S es) as (a & b & -> & Ha & Hb). destruct (IH b) as (l & Hl); [rewrite app_length in Hn; lia|]. exists (EHash z (e :: a) :: l). apply (@g_hash (e :: a) b); [discriminate|constructor; assumption|exact Hb|exact Hl].
  - destruct (IH es ltac:(lia)) as (l & Hl). exists (e :: l). constructor; assumption.
Qed.
Theorem C44_nothing_is_lost : forall es l, grouped es l -> (forall e, In e es -> match e with EHash _ _ => False | _ => True end) ->
  flat_map (fun e => match e with EHash _ entries => entries | _ => [e] end) l = es.
Proof.
  induction 1 as [|es rest out Hne HK Hr HG IH|e rest out Hk HG IH]; intros HH; [reflexivity| |].
  - cbn [flat_map]. rewrite IH; [reflexivity|]. intros e He. apply HH. apply in_or_app. now right.
  - cbn [flat_map]. rewrite IH; [|intros x Hx; apply HH; now right]. specialize (HH e (or_introl eq_refl)). destruct e; try reflexivity. destruct HH.
Qed.
Example C44_case : let p n := EKeyed z (EInt z 10 n) (EInt z 10 n) in grouped [p 1; p 2; EInt z 10 0; p 3] [EHash z [p 1; p 2]; EInt z 10 0; EHash z [p 3]].
Proof.
  cbv zeta. apply (@g_hash [_; _] [_; _]); [discriminate|repeat constructor|cbn; tauto|]. apply g_item; [cbn; tauto|]. apply (@g_hash [_] []); [discriminate|repeat constructor|exact Logic.I|constructor].
Qed.
Print Assumptions C44_arrays.
Print Assumptions C44_arguments.
Print Assumptions C44_no_pair_remains.
Print Assumptions C44_all_lists.
Print Assumptions C44_nothing_is_lost.

(** ** A manifest with comments *)
Ltac name_text := first [apply q_one; [unfold lower, upper; cbn; lia|repeat constructor; unfold wordchar, lower, upper, digit; cbn; lia]].
Definition T (g : str) (brk : bool) (t : tok) (v : tval) (x : string) : tk := mktk g brk t v 10 (lit x).
(** class foo($x=1) {# c
    foo($x,k=>2) } *)
Definition case_tokens (comment : str) (brk : bool) : list tk := [
  T [] false TClass (VStr (lit "class")) "class"; T (lit " ") false TIdentifier (VStr (lit "foo")) "foo"; T [] false TLp VNil "("; T [] false TVariable (VStr (lit "x")) "$x";
  T [] false TAssign VNil "="; T [] false TInteger (VInt 1) "1"; T [] false TRp VNil ")"; T (lit " ") false TLc VNil "{";
  T comment brk TIdentifier (VStr (lit "foo")) "foo"; T [] false TLp VNil "("; T [] false TVariable (VStr (lit "x")) "$x"; T [] false TComma VNil ",";
  T [] false TIdentifier (VStr (lit "k")) "k"; T [] false TFarrow VNil "=>"; T [] false TInteger (VInt 2) "2"; T [] false TRp VNil ")"; T (lit " ") false TRc VNil "}"].
Definition case_end : tk := T [] false TEnd VNil "".
Definition case_comment : str := lit "# c" ++ [10].
Definition case_program : list expr :=
  let x := EUn z KVariable (EQName z (lit "x")) in
  [EDef z (DClass []) (lit "foo") [EParam z (lit "x") (Some (EInt z 10 1)) None false]
    (EBlock z [ECallNamed z false (EQName z (lit "foo")) [x; EHash z [EKeyed z (EQName z (lit "k")) (EInt z 10 2)]] None])].
Lemma case_stream comment brk : (gap brk comment) -> stream puppet (top puppet 0) None None (case_tokens comment brk ++ [case_end]).
Proof.
  intros HG. unfold case_tokens, case_end, T. cbn [app stream k_tok k_val k_radix k_txt k_gap k_brk].
  repeat match goal with
  | |- _ /\ _ => split
  | |- SpecLex.written _ _ _ _ _ _ => apply wr_token; [|first [reflexivity|discriminate]]
  | |- token_text _ TEnd _ _ _ => exact (tt_end puppet 10)
  | |- token_text _ TClass _ _ _ => apply (tt_reserved puppet); vm_compute; tauto
  | |- token_text _ TIdentifier _ _ _ => apply tt_name; [name_text|vm_compute; intuition discriminate]
  | |- token_text _ TVariable _ _ _ => apply (@tt_var puppet [120]); name_text
  | |- token_text _ TInteger (VInt ?n) _ _ => apply (@decimal_token puppet n); lia
  | |- token_text _ _ VNil _ _ => apply (tt_punct puppet); vm_compute; tauto
  | |- if embedded _ then _ else _ => cbn [embedded top]
  | |- gap _ _ \/ _ => left; first [exact HG|repeat constructor]
  | |- ~ clash _ _ _ => vm_compute; try (intuition (try discriminate; try lia)); match goal with H : exists _, _ |- _ => destruct H; discriminate end
  | |- situated _ _ _ _ _ _ TLp => split; [reflexivity|discriminate]
  | |- situated _ _ _ _ _ _ TLc => discriminate
  | |- situated _ _ _ _ _ _ _ => exact Logic.I
  | |- _ -> _ => discriminate
  end; reflexivity.
Qed.
Definition case_source (comment : str) : str := lit "class foo($x=1) {" ++ comment ++ lit "foo($x,k=>2) }".
Lemma case_derive comment brk : D false [] Stmts (case_tokens comment brk) [EDef z (DClass []) (lit "foo") [EParam z (lit "x") (Some (EInt z 10 1)) None false]
    (EBlock z [ECallNamed z false (EQName z (lit "foo")) [EUn z KVariable (EQName z (lit "x")); EHash z [EKeyed z (EQName z (lit "k")) (EInt z 10 2)]] None])].
Proof.
  rewrite <- (app_nil_r (case_tokens _ _)). apply sts_next; [|constructor|exact Logic.I]. apply st_rel, op_rel; [|no_name]. apply atom_op; [|reflexivity|lia].
  pose (k := fun n => nth n (case_tokens comment brk) case_end). pose (seg := fun i n => firstn n (skipn i (case_tokens comment brk))).
  refine (@a_class _ [] (k 0%nat) (k 1%nat) (lit "foo") (seg 2%nat 5%nat) _ (seg 7%nat 10%nat) _ _ _ _ _).
  - split; reflexivity.
  - split; [left; reflexivity|reflexivity].
  - refine (@op_params _ _ (k 2%nat) (seg 3%nat 3%nat) (k 6%nat) _ _ _ _); [left; reflexivity| |reflexivity]. apply l_one.
    refine (@param_plain _ _ [] [] [] (k 3%nat) (lit "x") (seg 4%nat 2%nat) [EInt z 10 1] _ _ _ _ _); [constructor|left; reflexivity|reflexivity|reflexivity|].
    refine (@od_value _ _ (k 4%nat) (seg 5%nat 1%nat) _ _ _); [reflexivity|]. apply x_select, s_op, atom_op; [|reflexivity|lia]. exact (@a_int _ _ (k 5%nat) 1 eq_refl eq_refl).
  - refine (@b_braces _ _ (k 7%nat) (seg 8%nat 8%nat) (k 16%nat) [ECallNamed z true (EQName z (lit "foo")) [EUn z KVariable (EQName z (lit "x")); EHash z [EKeyed z (EQName z (lit "k")) (EInt z 10 2)]] None] _ _ _ _ _); [reflexivity| | |reflexivity].
    + rewrite <- (app_nil_r (seg _ _)). apply sts_next; [|constructor|exact Logic.I]. apply st_rel, op_rel; [|no_name]. apply (@up_ops _ _ _ _ 0); [|lia|lia]. apply o_unary, u_primary.
      apply (@p_chain _ _ _ (ECallNamed z true (EQName z (lit "foo")) [EUn z KVariable (EQName z (lit "x")); EHash z [EKeyed z (EQName z (lit "k")) (EInt z 10 2)]] None)).
      refine (@ch_call _ _ (seg 8%nat 1%nat) (EQName z (lit "foo")) (seg 9%nat 7%nat) [EUn z KVariable (EQName z (lit "x")); EHash z [EKeyed z (EQName z (lit "k")) (EInt z 10 2)]] [] [] _ _ _); [apply ch_atom; exact (@a_name _ _ (k 8%nat) (lit "foo") eq_refl eq_refl)| |constructor].
      refine (@args_parens _ _ (k 9%nat) (seg 10%nat 5%nat) (k 15%nat) [EUn z KVariable (EQName z (lit "x")); EKeyed z (EQName z (lit "k")) (EInt z 10 2)] _ _ _ _ _); [reflexivity| | |reflexivity].
      * refine (@l_more _ _ Arg (seg 10%nat 1%nat) _ (k 11%nat) (seg 12%nat 3%nat) _ _ _ _); [|reflexivity|].
        -- apply arg_plain. apply (@h_rel _ _ (k 10%nat) []); [vm_compute; intuition discriminate|]. apply op_rel; [|no_name]. apply atom_op; [|reflexivity|lia]. exact (@a_var _ _ (k 10%nat) (lit "x") eq_refl eq_refl).
        -- apply l_one, arg_entry. refine (@e_entry _ _ (seg 12%nat 1%nat) _ (k 13%nat) (seg 14%nat 1%nat) _ _ _ _); [|reflexivity|].
           ++ apply (@h_rel _ _ (k 12%nat) []); [vm_compute; intuition discriminate|]. apply op_rel; [|no_name]. apply atom_op; [|reflexivity|lia]. exact (@a_name _ _ (k 12%nat) (lit "k") eq_refl eq_refl).
           ++ apply (@h_rel _ _ (k 14%nat) []); [vm_compute; intuition discriminate|]. apply op_rel; [|no_name]. apply atom_op; [|reflexivity|lia]. exact (@a_int _ _ (k 14%nat) 2 eq_refl eq_refl).
      * apply g_item; [cbn; tauto|]. apply (@g_hash [_] []); [discriminate|repeat constructor|exact Logic.I|constructor].
    + apply (@sts_other (ECallNamed z true (EQName z (lit "foo")) [EUn z KVariable (EQName z (lit "x")); EHash z [EKeyed z (EQName z (lit "k")) (EInt z 10 2)]] None) [] []); [intros (m & E & _); discriminate|intros []|constructor].
Qed.
Lemma case_statements : statements case_program case_program.
Proof. apply simple_statement. split; [intros []|reflexivity]. Qed.
Lemma case_gap : gap true case_comment.
Proof. apply (@gap_line false [32; 99] []); [repeat constructor; unfold rune_ok; cbn; intuition (try discriminate; lia)|cbn; intuition lia|constructor]. Qed.
Example C47_case : manifest puppet (case_source case_comment) case_program.
Proof.
  change (case_source case_comment) with (render (case_tokens case_comment true ++ [case_end])).
  apply (@manifest_of puppet 0 _ _ case_program); [apply case_stream; exact case_gap|reflexivity|apply case_derive|exact case_statements].
Qed.
Example C47_case_run : exists e, parse conf_fuel puppet (case_source case_comment) false = POk e /\ strip e = program case_program.
Proof. eexists. split; vm_compute; reflexivity. Qed.
Example C14_case : respaced (case_tokens case_comment true) (case_tokens (lit " ") false) /\ stream puppet (top puppet 0) None None (case_tokens case_comment true ++ [case_end])
  /\ stream puppet (top puppet 0) None None (case_tokens (lit " ") false ++ [case_end]) /\ D false [] Stmts (case_tokens case_comment true) case_program /\ statements case_program case_program.
Proof.
  split; [repeat constructor; cbn; auto; try discriminate|]. split; [apply case_stream; exact case_gap|]. split; [apply case_stream; repeat constructor|]. split; [apply case_derive|exact case_statements].
Qed.
Print Assumptions C14_space_does_not_matter.
Print Assumptions C47_manifests_are_parsed.
Print Assumptions C47_expressions_are_parsed.
Print Assumptions C47_grammar_is_unambiguous.

(** ** C21 *)
(** for the manifests of the grammar the list of definitions is exactly that of
    the tree: each definition as often as it occurs, inner ones first *)
Theorem C21_manifests_list_definitions_once : forall o source out,
  manifests o -> manifest o source out ->
  exists p body listed n0, (forall n, (n0 <= n)%nat -> parse n o source false = POk (EProgram p body listed))
    /\ strip body = EBlock z out /\ map strip listed = flat_map defs out.
Proof.
  intros o source out HP HM. destruct (manifest_parses HP HM) as (e & n0 & H1 & H2). unfold program in H2. destruct e; try discriminate. cbn [strip] in H2. injection H2 as H2 H3. eauto 7.
Qed.
Example C21_manifest_case : manifest puppet (case_source case_comment) case_program /\ flat_map defs case_program = case_program.
Proof. split; [exact C47_case|reflexivity]. Qed.
Print Assumptions C21_manifests_list_definitions_once.
