(** * LexTokens: what nextToken does on a token of known text

    [c0] is the state with the position at the start of the token, [s] what
    follows the token. *)
From Verif Require Import Base Float Tokens Ast Ctx Lexer Parser Utf8Facts SpecReader ReaderProof LexBase SpecLex GapProof.
From Coq Require Import Lia ZifyBool.

(** ** Characters *)
Lemma lower_b c : isLowercaseLetter c = true <-> lower c. Proof. unfold isLowercaseLetter, in_range, lower. lia. Qed.
Lemma upper_b c : isUppercaseLetter c = true <-> upper c. Proof. unfold isUppercaseLetter, in_range, upper. lia. Qed.
Lemma digit_b c : isDecimalDigit c = true <-> digit c. Proof. unfold isDecimalDigit, in_range, digit. lia. Qed.
Lemma wordchar_b c : isLetterOrDigit c = true <-> wordchar c.
Proof. unfold isLetterOrDigit, isLetter, isDecimalDigit, isUppercaseLetter, isLowercaseLetter, in_range, wordchar, lower, upper, digit. lia. Qed.
Lemma wordchar_f c : isLetterOrDigit c = false <-> ~ wordchar c.
Proof. rewrite <- wordchar_b. destruct (isLetterOrDigit c); intuition congruence. Qed.

(** The text ends here or goes on with an ASCII character *)
Definition ascii_head (s : str) : Prop := s = [] \/ exists b s', s = b :: s' /\ 0 < b < 128.
Lemma ascii_head_rune s : ascii_head s -> exists w, head_rune s = Some (first_byte s, w).
Proof. intros [->|(b & s' & -> & H)]; [exists 0; reflexivity|]. exists 1. cbn [first_byte]. apply head_ascii. lia. Qed.
Lemma ascii_head_is s (P : Z -> Prop) : ascii_head s -> P (first_byte s) -> next_is s P.
Proof. intros H HP. destruct (ascii_head_rune H) as (w & E). exists (first_byte s), w. auto. Qed.
Lemma first_byte_range s : ascii_head s -> 0 <= first_byte s < 128.
Proof. intros [->|(b & s' & -> & H)]; cbn; lia. Qed.

Definition solid_b (r : Z) : bool := negb (existsb (Z.eqb r) [10; 35; 47; 42; 32; 9; 13]).
Lemma solid_spec r : solid_b r = true -> solid r.
Proof. unfold solid_b, solid, blank. cbn. lia. Qed.

(** the state after the token *)
Definition lexed (t : tok) (v : tval) (txt : str) (c0 : ctx) : ctx := with_tok t v (fwd (zlen txt) c0).
(** nextToken on the token text [txt], after the white space *)
Definition lexes (rec : forall A, fn A -> M A) (scan : Z) (txt : str) (c0 c' : ctx) : Prop :=
  lex_token rec scan (c_pos c0) (first_byte txt) (fwd 1 c0) = Ok tt c'.

(** ** Digits *)
Lemma digit_range d : isDecimalDigit d = true -> 48 <= d <= 57.
Proof. unfold isDecimalDigit, in_range. lia. Qed.
Lemma digits_ascii ds : Forall (fun d => isDecimalDigit d = true) ds -> Forall (fun x => 0 <= x < 128 /\ isDecimalDigit x = true) ds.
Proof. apply Forall_impl. intros d H. pose proof (digit_range H). split; [lia|exact H]. Qed.
Lemma at_skipDecimalDigits c ds s r w : at_ c (ds ++ s) -> Forall (fun d => isDecimalDigit d = true) ds ->
  head_rune s = Some (r, w) -> isDecimalDigit r = false -> (ds = [] -> r <> "+"%ch /\ r <> "-"%ch) ->
  skipDecimalDigits c = Ok (zlen ds) (fwd (zlen ds) c).
Proof.
  intros H HF Hh Hr Hs. unfold skipDecimalDigits.
  assert (exists x y, head_rune (ds ++ s) = Some (x, y) /\ x <> "+"%ch /\ x <> "-"%ch) as (x & y & Hx & Hx1 & Hx2).
  { destruct ds as [|d ds]; [exists r, w; destruct (Hs eq_refl); auto|]. inversion HF; subst. pose proof (digit_range H2).
    exists d, 1. split; [apply head_ascii; lia|lia]. }
  rewrite (bind_ok _ (at_peek H Hx)). cbv beta iota.
  replace ((x =? "-"%ch) || (x =? "+"%ch)) with false by lia. unfold bind at 1, ret.
  rewrite (bind_ok _ (at_skip_while H (digits_ascii HF) Hh Hr)). reflexivity.
Qed.
Lemma decimals_digits ds : Forall (fun d => 0 <= d <= 9) ds -> Forall (fun d => isDecimalDigit d = true) (decimals ds).
Proof. intros H. unfold decimals. rewrite Forall_map. revert H. apply Forall_impl. intros d. unfold isDecimalDigit, in_range. lia. Qed.

(** *** ParseInt *)
Lemma value_cons base d ds a : fold_left (fun a d => a * base + d) (d :: ds) a = fold_left (fun a d => a * base + d) ds (a * base + d). Proof. reflexivity. Qed.
Lemma parse_digits_value base ds cs : 2 <= base <= 16 -> Forall2 hex_char ds cs -> Forall (fun d => d < base) ds ->
  forall a, parse_digits base a cs = Some (fold_left (fun a d => a * base + d) ds a).
Proof.
  intros Hb H. induction H as [|d c ds cs Hd Hs IH]; intros HF a; [reflexivity|]. inversion HF; subst. cbn [parse_digits].
  assert (digit_val c = Some d) as ->.
  { unfold digit_val, in_range. destruct Hd as [[? ->]|[? [-> | ->]]].
    - replace (_ && _) with true by lia. f_equal. lia.
    - replace (("0"%ch <=? 87 + d) && (87 + d <=? "9"%ch)) with false by lia. replace (("a"%ch <=? 87 + d) && (87 + d <=? "z"%ch)) with true by lia. f_equal. lia.
    - replace (("0"%ch <=? 55 + d) && (55 + d <=? "9"%ch)) with false by lia. replace (("a"%ch <=? 55 + d) && (55 + d <=? "z"%ch)) with false by lia.
      replace (("A"%ch <=? 55 + d) && (55 + d <=? "Z"%ch)) with true by lia. f_equal. lia. }
  destruct (Z.ltb_spec d base); [|lia]. rewrite IH by assumption. reflexivity.
Qed.
Lemma hex_char_ascii d c : hex_char d c -> 48 <= c < 128 /\ isHexDigit c = true.
Proof. unfold hex_char, isHexDigit, in_range. lia. Qed.
Lemma parse_int_value base bits ds cs : 2 <= base <= 16 -> Forall2 hex_char ds cs -> Forall (fun d => d < base) ds -> ds <> [] ->
  value base ds < 2 ^ (bits - 1) -> parse_int cs base bits = value base ds.
Proof.
  intros Hb H HF Hn Hv. unfold parse_int. pose proof (parse_digits_value Hb H HF 0) as P. destruct H as [|d c ds cs Hd Hs]; [congruence|].
  pose proof (hex_char_ascii Hd). replace (c =? "-"%ch) with false by lia. replace (c =? "+"%ch) with false by lia.
  unfold parse_uint. rewrite P. change (fold_left (fun a d => a * base + d) (d :: ds) 0) with (value base (d :: ds)). lia.
Qed.
Lemma decimals_hex ds : Forall (fun d => 0 <= d <= 9) ds -> Forall2 hex_char ds (decimals ds).
Proof. induction 1; cbn; constructor; auto. left. lia. Qed.
Lemma parse_int_decimals ds : Forall (fun d => 0 <= d <= 9) ds -> ds <> [] -> value 10 ds < 2 ^ 63 -> parse_int (decimals ds) 10 64 = value 10 ds.
Proof.
  intros HF Hn Hv. apply parse_int_value; auto; [lia|now apply decimals_hex|]. revert HF. apply Forall_impl. lia.
Qed.

(** ** Integers *)
(** what may follow a number *)
Definition number_end (s : str) : Prop := ascii_head s /\ ~ wordchar (first_byte s).
Lemma number_end_facts o s : number_end s -> exists w, head_rune s = Some (first_byte s, w) /\
  isDecimalDigit (first_byte s) = false /\ isOctalDigit (first_byte s) = false /\ isHexDigit (first_byte s) = false /\ isLetterU o (first_byte s) = false
  /\ isLetter (first_byte s) = false
  /\ first_byte s <> "e"%ch /\ first_byte s <> "E"%ch
  /\ first_byte s <> "x"%ch /\ first_byte s <> "X"%ch.
Proof.
  intros (H1 & H2). destruct (ascii_head_rune H1) as (w & Hw). exists w. split; [exact Hw|].
  pose proof (first_byte_range H1) as HR. unfold wordchar, lower, upper, digit in H2.
  unfold isLetterU, isLetter, isDecimalDigit, isOctalDigit, isHexDigit, isUppercaseLetter, isLowercaseLetter, in_range.
  destruct (Z.ltb_spec (first_byte s) 128); [|lia]. repeat split; lia.
Qed.
Lemma lex_decimal rec scan c0 d ds s : at_ c0 ((d :: ds) ++ s) ->
  49 <= d <= 57 -> Forall (fun x => isDecimalDigit x = true) ds -> number_end s -> first_byte s <> "."%ch -> (ds = [] -> first_byte s <> "+"%ch /\ first_byte s <> "-"%ch) ->
  lexes rec scan (d :: ds) c0 (with_radix 10 (lexed TInteger (VInt (parse_int (d :: ds) 10 64)) (d :: ds) c0)).
Proof.
  intros H0 Hd HF HE E6 E78. destruct (number_end_facts (c_opts c0) HE) as (w & Hh & E1 & E2 & E3 & E4 & E5 & E9 & E10 & E11 & E12).
  unfold lexes, lex_token. cbn [first_byte]. replace (in_range "1"%ch d "9"%ch) with true by (unfold in_range; lia).
  unfold lexed, lex_number. cbn [app] in H0.
  rewrite (bind_ok _ (at_skipDecimalDigits (at_fwd1 H0) HF Hh E1 E78)).
  rewrite (bind_ok _ (at_peek (at_fwd (at_fwd1 H0)) Hh)). cbv beta iota. replace (_ || _ || _) with false by lia.
  unfold isLetterM at 1, bind at 1, ask. cbn [fwd with_pos c_opts]. rewrite E4.
  rewrite fwd_fwd. change (1 + zlen ds) with (zlen [d] + zlen ds). rewrite <- zlen_app. cbn [app].
  rewrite (bind_ok _ (at_from (a := d :: ds) H0 eq_refl)). reflexivity.
Qed.
Lemma lex_zero_alone rec scan c0 s : at_ c0 (lit "0" ++ s) -> number_end s -> first_byte s <> "."%ch ->
  lexes rec scan (lit "0") c0 (with_radix 10 (lexed TInteger (VInt 0) (lit "0") c0)).
Proof.
  intros H0 HE E6. destruct (number_end_facts (c_opts c0) HE) as (w & Hh & E1 & E2 & E3 & E4 & E5 & E9 & E10 & E11 & E12).
  change (lexes rec scan (lit "0") c0 (with_radix 10 (lexed TInteger (VInt 0) (lit "0") c0)))
    with (lex_zero (c_pos c0) (fwd 1 c0) = Ok tt (with_radix 10 (lexed TInteger (VInt 0) (lit "0") c0))).
  unfold lex_zero. unfold bind at 1, modify. pose proof (at_fwd1 H0) as H1.
  set (c1 := with_radix 10 (fwd 1 c0)). assert (H2 : at_ c1 s) by (eapply at_state; [exact H1|reflexivity|reflexivity]).
  rewrite (bind_ok _ (at_peek H2 Hh)). cbv beta iota.
  destruct (Z.eqb_spec (first_byte s) 0); [reflexivity|].
  replace ((first_byte s =? "x"%ch) || (first_byte s =? "X"%ch)) with false by lia.
  replace ((first_byte s =? "."%ch) || (first_byte s =? "e"%ch) || (first_byte s =? "E"%ch)) with false by lia.
  unfold bind at 1, getPos, ask. rewrite (bind_ok _ (@at_skip_while isOctalDigit c1 [] s (first_byte s) w H2 (Forall_nil _) Hh E2)). cbv beta iota.
  change (fwd (zlen (@nil Z)) c1) with (fwd 0 c1). rewrite fwd_0.
  unfold isLetterM at 1, bind at 1, ask. replace (c_opts c1) with (c_opts c0) by reflexivity. rewrite E1, E4. cbv iota. cbn [orb].
  unfold bind at 1, getPos, ask. rewrite Z.ltb_irrefl. reflexivity.
Qed.
Lemma zlen_pos A (x : A) l : 0 < zlen (x :: l). Proof. unfold zlen. cbn. lia. Qed.
Lemma lex_octal rec scan c0 ds s : at_ c0 ((lit "0" ++ ds) ++ s) -> ds <> [] -> Forall (fun x => isOctalDigit x = true) ds -> number_end s ->
  lexes rec scan (lit "0" ++ ds) c0 (with_radix 8 (lexed TInteger (VInt (parse_int ds 8 64)) (lit "0" ++ ds) c0)).
Proof.
  intros H0 Hn HF HE. destruct (number_end_facts (c_opts c0) HE) as (w & Hh & E1 & E2 & E3 & E4 & E5 & E9 & E10 & E11 & E12).
  match goal with |- lexes _ _ _ _ ?c' => change (lex_zero (c_pos c0) (fwd 1 c0) = Ok tt c') end.
  unfold lex_zero. unfold bind at 1, modify. cbn [lit app] in H0. change (Z.of_N (N_of_ascii "0")) with "0"%ch in H0. pose proof (at_fwd1 H0) as H1.
  set (c1 := with_radix 10 (fwd 1 c0)). assert (H2 : at_ c1 (ds ++ s)) by (eapply at_state; [exact H1|reflexivity|reflexivity]).
  assert (HA : Forall (fun x => 0 <= x < 128 /\ isOctalDigit x = true) ds).
  { revert HF. apply Forall_impl. intros a Ha. split; [|exact Ha]. unfold isOctalDigit, in_range in Ha. lia. }
  destruct ds as [|d ds]; [congruence|]. inversion HA as [|? ? [Hd1 Hd2] HA']; subst. clear Hn.
  assert (48 <= d <= 55) as Hd by (unfold isOctalDigit, in_range in Hd2; lia).
  rewrite (bind_ok _ (at_peek H2 (@head_ascii d _ Hd1))). cbv beta iota.
  replace (d =? 0) with false by lia. replace ((d =? "x"%ch) || (d =? "X"%ch)) with false by lia.
  replace ((d =? "."%ch) || (d =? "e"%ch) || (d =? "E"%ch)) with false by lia.
  unfold bind at 1, getPos, ask. rewrite (bind_ok _ (at_skip_while H2 HA Hh E2)). cbv beta iota.
  unfold isLetterM at 1, bind at 1, ask. cbn [fwd with_pos c_opts]. replace (c_opts c1) with (c_opts c0) by reflexivity. rewrite E1, E4. cbn [orb].
  unfold bind at 1, getPos, ask. cbn [fwd with_pos c_pos]. pose proof (zlen_pos d ds). destruct (Z.ltb_spec (c_pos c1) (c_pos c1 + zlen (d :: ds))); [|lia].
  rewrite (bind_ok _ (at_from (a := d :: ds) H2 eq_refl)). unfold bind, modify, settokenValue, lexed, c1. cbn [lit app]. rewrite !zlen_cons.
  unfold fwd, with_pos, with_radix, with_tok. cbn [c_pos c_text c_opts c_nls c_tok c_bol c_tsp c_val c_radix c_names c_defs].
  replace (c_pos c0 + (1 + (1 + zlen ds))) with (c_pos c0 + 1 + (1 + zlen ds)) by lia. reflexivity.
Qed.
Lemma lex_hex rec scan c0 x cs s : at_ c0 (("0"%ch :: x :: cs) ++ s) -> x = "x"%ch \/ x = "X"%ch -> cs <> [] ->
  Forall (fun x => isHexDigit x = true) cs -> number_end s ->
  lexes rec scan ("0"%ch :: x :: cs) c0 (with_radix 16 (lexed TInteger (VInt (parse_int cs 16 64)) ("0"%ch :: x :: cs) c0)).
Proof.
  intros H0 Hx Hn HF HE. destruct (number_end_facts (c_opts c0) HE) as (w & Hh & E1 & E2 & E3 & E4 & E5 & E9 & E10 & E11 & E12).
  match goal with |- lexes _ _ _ _ ?c' => change (lex_zero (c_pos c0) (fwd 1 c0) = Ok tt c') end.
  unfold lex_zero. unfold bind at 1, modify. cbn [app] in H0. pose proof (at_fwd1 H0) as H1.
  set (c1 := with_radix 10 (fwd 1 c0)). assert (H2 : at_ c1 (x :: cs ++ s)) by (eapply at_state; [exact H1|reflexivity|reflexivity]).
  rewrite (bind_ok _ (at_peek H2 (@head_ascii x _ ltac:(lia)))). cbv beta iota.
  replace (x =? 0) with false by lia. replace ((x =? "x"%ch) || (x =? "X"%ch)) with true by lia.
  unfold bind at 1, advance, modify. fold (fwd 1 c1). unfold bind at 1, getPos, ask.
  assert (HA : Forall (fun x => 0 <= x < 128 /\ isHexDigit x = true) cs).
  { revert HF. apply Forall_impl. intros a Ha. split; [|exact Ha]. unfold isHexDigit, in_range in Ha. lia. }
  pose proof (at_fwd1 H2) as H3.
  rewrite (bind_ok _ (at_skip_while H3 HA Hh E3)). cbv beta iota. unfold bind at 1, getPos, ask.
  destruct cs as [|d ds]; [congruence|]. pose proof (zlen_pos d ds).
  replace (_ || _) with false by (cbn [fwd with_pos c_pos]; rewrite E5; lia).
  rewrite (bind_ok _ (at_from (a := d :: ds) H3 eq_refl)). unfold bind, modify, settokenValue, lexed, c1. rewrite (zlen_cons "0"%ch), (zlen_cons x).
  unfold fwd, with_pos, with_radix, with_tok. cbn [c_pos c_text c_opts c_nls c_tok c_bol c_tsp c_val c_radix c_names c_defs].
  replace (c_pos c0 + (1 + (1 + zlen (d :: ds)))) with (c_pos c0 + 1 + 1 + zlen (d :: ds)) by lia. reflexivity.
Qed.

(** ** Floats *)
Lemma skip_digits_at c ds s : at_ c (decimals ds ++ s) -> Forall (fun d => 0 <= d <= 9) ds -> ascii_head s -> ~ digit (first_byte s) ->
  exists x, skip_while isDecimalDigit c = Ok (zlen ds, x) (fwd (zlen (decimals ds)) c).
Proof.
  intros H HF Ha Hd. destruct (ascii_head_rune Ha) as (w & Hh).
  assert (E1 : isDecimalDigit (first_byte s) = false) by (rewrite <- digit_b in Hd; destruct (isDecimalDigit _); congruence).
  exists (first_byte s, w). rewrite (at_skip_while H (digits_ascii (decimals_digits HF)) Hh E1).
  replace (zlen (decimals ds)) with (zlen ds) by (unfold zlen, decimals; now rewrite map_length). reflexivity.
Qed.
Lemma digits_or_fail_at c sign ds s : at_ c (sign ++ decimals ds ++ s) -> sign = [] \/ sign = ["-"%ch] \/ sign = ["+"%ch] ->
  Forall (fun d => 0 <= d <= 9) ds -> ds <> [] -> ascii_head s -> ~ digit (first_byte s) ->
  digits_or_fail c = Ok tt (fwd (zlen (sign ++ decimals ds)) c).
Proof.
  intros H Hs HF Hn Ha Hd.
  assert (HP : (zlen ds =? 0) = false) by (destruct ds as [|d ds]; [congruence|]; pose proof (zlen_pos d ds); lia).
  assert (Hg : forall b, sign = [b] -> digits_or_fail c = Ok tt (fwd (zlen (sign ++ decimals ds)) c)).
  { intros b ->. destruct Hs as [?|Hs]; [discriminate|]. assert (Hb : b = "-"%ch \/ b = "+"%ch) by (destruct Hs as [E|E]; inversion E; auto).
    cbn [app] in H. unfold digits_or_fail, skipDecimalDigits. unfold bind at 1.
    rewrite (bind_ok _ (at_peek H (@head_ascii b _ ltac:(lia)))). cbv beta iota. replace (_ || _) with true by lia.
    unfold bind at 1, advance, modify. fold (fwd 1 c). destruct (skip_digits_at (at_fwd1 H) HF Ha Hd) as (x & E). rewrite (bind_ok _ E). unfold ret.
    rewrite HP, fwd_fwd, zlen_app. reflexivity. }
  destruct Hs as [-> | [-> | ->]]; [|now apply (Hg "-"%ch)|now apply (Hg "+"%ch)]. clear Hg. cbn [app] in *.
  destruct ds as [|d ds]; [congruence|]. assert (0 <= d <= 9) as Hr by now inversion HF.
  unfold digits_or_fail, skipDecimalDigits. unfold bind at 1.
  rewrite (bind_ok _ (at_peek H (@head_ascii (48 + d) (decimals ds ++ s) ltac:(lia)))). cbv beta iota. replace (_ || _) with false by lia.
  unfold bind at 1, ret at 1. destruct (skip_digits_at H HF Ha Hd) as (x & E). rewrite (bind_ok _ E). unfold ret.
  rewrite HP. reflexivity.
Qed.
Lemma at_app c a b s : at_ c ((a ++ b) ++ s) -> at_ (fwd (zlen a) c) (b ++ s).
Proof. rewrite <- app_assoc. apply at_fwd. Qed.
Lemma number_end_digit s : number_end s -> ascii_head s /\ ~ digit (first_byte s).
Proof. intros (H1 & H2). split; [exact H1|]. unfold wordchar in H2. tauto. Qed.
Lemma exponent_head e : exponent e -> exists x t, e = x :: t /\ (x = "e"%ch \/ x = "E"%ch).
Proof. intros (x & sg & ds & H1 & _ & _ & _ & ->). exists x. eexists. split; [reflexivity|exact H1]. Qed.
Lemma float_tail c0 pre txt s : at_ c0 ((pre ++ txt) ++ s) -> number_end s -> forall c r w, c = fwd (zlen (pre ++ txt)) c0 -> head_rune s = Some (r, w) ->
  (letter <- isLetterM r ;;
   if letter : bool then issue LEX_DIGIT_EXPECTED else s <- from (c_pos c0) ;; settokenValue TFloat (VFloat (parse_float s))) c
  = Ok tt (lexed TFloat (VFloat (parse_float (pre ++ txt))) (pre ++ txt) c0).
Proof.
  intros H HE c r w -> Hh. destruct (number_end_facts (c_opts c0) HE) as (w' & Hh' & _ & _ & _ & E4 & _). rewrite Hh in Hh'. inversion Hh'; subst.
  unfold isLetterM, bind at 1, ask. cbn [fwd with_pos c_opts]. rewrite E4. rewrite (bind_ok _ (at_from H eq_refl)). reflexivity.
Qed.
Lemma consumeFloat_exp c0 pre x sign ds s : at_ c0 ((pre ++ sign ++ decimals ds) ++ s) -> x = "e"%ch \/ x = "E"%ch ->
  sign = [] \/ sign = ["-"%ch] \/ sign = ["+"%ch] -> Forall (fun d => 0 <= d <= 9) ds -> ds <> [] -> number_end s ->
  consumeFloat (c_pos c0) x (fwd (zlen pre) c0)
  = Ok tt (lexed TFloat (VFloat (parse_float (pre ++ sign ++ decimals ds))) (pre ++ sign ++ decimals ds) c0).
Proof.
  intros H Hx Hs HF Hn HE. destruct (number_end_digit HE) as [Ha Hd]. pose proof (at_app H) as H1. rewrite <- app_assoc in H1.
  unfold consumeFloat. rewrite (bind_ok _ (digits_or_fail_at H1 Hs HF Hn Ha Hd)). destruct (ascii_head_rune Ha) as (w & Hh).
  rewrite app_assoc in H1. rewrite (bind_ok _ (at_peek (at_fwd H1) Hh)). cbv beta iota. replace (x =? "."%ch) with false by lia. cbn [andb].
  unfold bind at 1, ret at 1. rewrite fwd_fwd, <- zlen_app. eapply float_tail; eauto.
Qed.
Lemma consumeFloat_point c0 pre ds s : at_ c0 ((pre ++ decimals ds) ++ s) ->
  Forall (fun d => 0 <= d <= 9) ds -> ds <> [] -> number_end s ->
  consumeFloat (c_pos c0) "."%ch (fwd (zlen pre) c0)
  = Ok tt (lexed TFloat (VFloat (parse_float (pre ++ decimals ds))) (pre ++ decimals ds) c0).
Proof.
  intros H HF Hn HE. destruct (number_end_digit HE) as [Ha Hd]. pose proof (at_app H) as H1.
  unfold consumeFloat. rewrite (bind_ok _ (@digits_or_fail_at _ [] ds s H1 (or_introl eq_refl) HF Hn Ha Hd)). cbn [app].
  destruct (number_end_facts (c_opts c0) HE) as (w & Hh & E1 & E2 & E3 & E4 & E5 & E9 & E10 & E11 & E12).
  rewrite (bind_ok _ (at_peek (at_fwd H1) Hh)). cbv beta iota. replace (_ && _) with false by lia.
  unfold bind at 1, ret at 1. rewrite fwd_fwd, <- zlen_app. eapply float_tail; eauto.
Qed.
Lemma consumeFloat_point_exp c0 pre ds e s : at_ c0 ((pre ++ decimals ds ++ e) ++ s) ->
  Forall (fun d => 0 <= d <= 9) ds -> ds <> [] -> exponent e -> number_end s ->
  consumeFloat (c_pos c0) "."%ch (fwd (zlen pre) c0)
  = Ok tt (lexed TFloat (VFloat (parse_float (pre ++ decimals ds ++ e))) (pre ++ decimals ds ++ e) c0).
Proof.
  intros H HF Hn He HE. destruct (number_end_digit HE) as [Ha Hd]. pose proof (at_app H) as H1. rewrite <- app_assoc in H1.
  destruct He as (x & sign & es & Hx & Hs & HFe & Hne & ->). set (e := x :: sign ++ decimals es) in *.
  assert (HA : ascii_head (e ++ s)) by (right; exists x; eexists; split; [reflexivity|lia]).
  assert (HD : ~ digit (first_byte (e ++ s))) by (unfold digit; cbn; lia).
  unfold consumeFloat. rewrite (bind_ok _ (@digits_or_fail_at _ [] ds (e ++ s) H1 (or_introl eq_refl) HF Hn HA HD)). cbn [app].
  pose proof (at_fwd H1) as H2. rewrite (bind_ok _ (at_peek H2 (@head_ascii x _ ltac:(lia)))). cbv beta iota.
  replace (_ && _) with true by lia. unfold bind at 1. unfold bind at 1, advance, modify. fold (fwd 1 (fwd (zlen (decimals ds)) (fwd (zlen pre) c0))).
  pose proof (at_fwd1 H2) as H3. fold (app (A := Z)) in H3. rewrite <- app_assoc in H3. destruct (ascii_head_rune Ha) as (w & Hh).
  rewrite (bind_ok _ (digits_or_fail_at H3 Hs HFe Hne Ha Hd)). rewrite app_assoc in H3. rewrite (bind_ok _ (at_peek (at_fwd H3) Hh)). cbv beta iota. unfold ret at 1.
  eapply float_tail; [exact H|exact HE| |exact Hh]. rewrite !fwd_fwd. f_equal. unfold e. rewrite !zlen_app, (zlen_cons x), zlen_app. lia.
Qed.
(** a number that goes on with a point or an exponent *)
Lemma lex_leading scan c0 ds x t : at_ c0 (decimals ds ++ x :: t) -> Forall (fun d => 0 <= d <= 9) ds -> ds = [0] \/ 0 < hd 0 ds ->
  In x ["."%ch; "e"%ch; "E"%ch] -> exists r, forall rec : forall A, fn A -> M A,
  lex_token rec scan (c_pos c0) (first_byte (decimals ds)) (fwd 1 c0)
  = consumeFloat (c_pos c0) x (with_radix r (fwd (zlen (decimals ds ++ [x])) c0)).
Proof.
  intros H HF Hz Hx. assert (Hx' : 0 <= x < 128 /\ isDecimalDigit x = false /\ x <> 0 /\ x <> "x"%ch /\ x <> "X"%ch /\ x <> "+"%ch /\ x <> "-"%ch
    /\ (x =? "."%ch) || (x =? "e"%ch) || (x =? "E"%ch) = true).
  { cbn in Hx. unfold isDecimalDigit, in_range. destruct Hx as [<-|[<-|[<-|[]]]]; cbn; lia. }
  destruct Hx' as (X1 & X2 & X3 & X4 & X5 & X6 & X7 & X8). destruct Hz as [->|Hz].
  - exists 10. intros rec. change (decimals [0]) with ["0"%ch] in *. cbn [app] in H.
    change (lex_zero (c_pos c0) (fwd 1 c0) = consumeFloat (c_pos c0) x (with_radix 10 (fwd (zlen ["0"%ch; x]) c0))).
    unfold lex_zero. unfold bind at 1, modify. pose proof (at_fwd1 H) as H1.
    set (c1 := with_radix 10 (fwd 1 c0)). assert (H2 : at_ c1 (x :: t)) by (eapply at_state; [exact H1|reflexivity|reflexivity]).
    rewrite (bind_ok _ (at_peek H2 (@head_ascii x t X1))). cbv beta iota. replace (x =? 0) with false by lia.
    replace ((x =? "x"%ch) || (x =? "X"%ch)) with false by lia. rewrite X8. unfold bind, advance, modify. f_equal. unfold c1, fwd, with_pos, with_radix. cbn [c_pos c_text c_opts c_nls c_tok c_bol c_tsp c_val c_radix c_names c_defs].
    change (zlen ["0"%ch; x]) with 2. replace (c_pos c0 + 1 + 1) with (c_pos c0 + 2) by lia. reflexivity.
  - exists (c_radix c0). intros rec. destruct ds as [|d ds]; [cbn in Hz; lia|]. cbn [hd] in Hz. inversion HF as [|? ? Hd HF']; subst.
    change (decimals (d :: ds)) with ((48 + d) :: decimals ds) in *. cbn [app] in H. cbn [first_byte]. unfold lex_token.
    replace (in_range "1"%ch (48 + d) "9"%ch) with true by (unfold in_range; lia). unfold lex_number.
    rewrite (bind_ok _ (at_skipDecimalDigits (at_fwd1 H) (decimals_digits HF') (@head_ascii x t X1) X2 (fun _ => conj X6 X7))).
    rewrite (bind_ok _ (at_peek (at_fwd (at_fwd1 H)) (@head_ascii x t X1))). cbv beta iota. rewrite X8. unfold bind, advance, modify.
    f_equal. cbn [app]. rewrite zlen_cons, zlen_app. change (zlen [x]) with 1. unfold fwd, with_pos, with_radix. cbn [c_pos c_text c_opts c_nls c_tok c_bol c_tsp c_val c_radix c_names c_defs].
    replace (c_pos c0 + 1 + zlen (decimals ds) + 1) with (c_pos c0 + (1 + (zlen (decimals ds) + 1))) by lia. reflexivity.
Qed.
Lemma lex_float scan c0 txt s : at_ c0 (txt ++ s) -> float_text txt -> number_end s ->
  exists r, forall rec, lexes rec scan txt c0 (with_radix r (lexed TFloat (VFloat (parse_float txt)) txt c0)).
Proof.
  intros H HT HE.
  assert (HR : forall r, at_ (with_radix r c0) (txt ++ s)) by (intros r; eapply at_state; [exact H|reflexivity|reflexivity]).
  assert (K : forall ds x m, txt = decimals ds ++ x :: m -> Forall (fun d => 0 <= d <= 9) ds -> ds = [0] \/ 0 < hd 0 ds -> In x ["."%ch; "e"%ch; "E"%ch] ->
    (forall r, consumeFloat (c_pos (with_radix r c0)) x (fwd (zlen (decimals ds ++ [x])) (with_radix r c0))
       = Ok tt (lexed TFloat (VFloat (parse_float txt)) txt (with_radix r c0))) ->
    exists r, forall rec, lexes rec scan txt c0 (with_radix r (lexed TFloat (VFloat (parse_float txt)) txt c0))).
  { intros ds x m Et HF Hz Hx E. assert (H' : at_ c0 (decimals ds ++ x :: m ++ s)) by (rewrite Et in H; rewrite <- app_assoc in H; exact H).
    destruct (lex_leading scan H' HF Hz Hx) as (r & L). exists r. intros rec. unfold lexes.
    replace (first_byte txt) with (first_byte (decimals ds)) by (rewrite Et; destruct ds; [destruct Hz as [?|Hz]; [discriminate|cbn in Hz; lia]|reflexivity]).
    rewrite L. exact (E r). }
  assert (Z1 : forall (a b : str) x, a ++ x :: b = (a ++ [x]) ++ b) by (intros; now rewrite <- app_assoc).
  destruct HT as [ds e HF Hz He | ds fs HF Hz HFf Hn | ds fs e HF Hz HFf Hn He].
  - destruct He as (x & sign & es & Hx & Hs & HFe & Hne & ->). eapply (K ds x); [reflexivity|exact HF|exact Hz|destruct Hx; subst; cbn; auto|].
    intros r. specialize (HR r). rewrite (Z1 (decimals ds) (sign ++ decimals es) x) in *. exact (consumeFloat_exp HR Hx Hs HFe Hne HE).
  - eapply (K ds "."%ch); [reflexivity|exact HF|exact Hz|cbn; auto|]. intros r. specialize (HR r). rewrite (Z1 (decimals ds) (decimals fs) "."%ch) in *. exact (consumeFloat_point HR HFf Hn HE).
  - eapply (K ds "."%ch); [reflexivity|exact HF|exact Hz|cbn; auto|]. intros r. specialize (HR r). rewrite (Z1 (decimals ds) (decimals fs ++ e) "."%ch) in *. exact (consumeFloat_point_exp HR HFf Hn He HE).
Qed.

(** ** Names *)
Definition first_of (token : tok) : Z -> Prop := match token with TTypeName => upper | _ => lower end.
(** what may follow a name *)
Definition readable (s : str) : Prop := exists r w, head_rune s = Some (r, w) /\ (r = first_byte s \/ 128 <= r /\ 128 <= first_byte s).
Lemma ascii_readable s : ascii_head s -> readable s.
Proof. intros H. destruct (ascii_head_rune H) as (w & E). exists (first_byte s), w. auto. Qed.
Definition name_end (token : tok) (s : str) : Prop :=
  readable s /\ ~ wordchar (first_byte s) /\ (token = TIdentifier -> first_byte s <> "-"%ch) /\ ~ double_colon s
  /\ forall s', s = ":"%ch :: s' -> readable s'.
Lemma word_ascii s : Forall wordchar s -> Forall (fun x => 0 <= x < 128 /\ isLetterOrDigit x = true) s.
Proof. apply Forall_impl. intros x H. split; [|now apply wordchar_b]. unfold wordchar, lower, upper, digit in H. lia. Qed.
Lemma first_facts token h : In token [TIdentifier; TTypeName; TVariable] -> first_of token h -> 0 <= h < 128 /\ h <> ":"%ch /\ h <> "_"%ch
  /\ (tok_eqb token TTypeName && isUppercaseLetter h)
          || (negb (tok_eqb token TTypeName) && (isLowercaseLetter h || (tok_eqb token TVariable && (h =? "_"%ch)))) = true.
Proof.
  unfold first_of, upper, lower, isUppercaseLetter, isLowercaseLetter, in_range. cbn. intros [<-|[<-|[<-|[]]]] H; cbn; lia.
Qed.
Lemma qname_end start token c t s n : at_ c (t ++ s) -> Forall wordchar t -> In token [TIdentifier; TTypeName; TVariable] -> name_end token s ->
  loop (S n) (qualifiedName_step start token) (false, false) c = Ok false (fwd (zlen t) c).
Proof.
  intros H HW HT (E1 & E2 & E3 & E4 & E5). destruct E1 as (r & w & Hh & Hr). 
  assert (F1 : isLetterOrDigit r = false).
  { destruct Hr as [->|[Hr _]]; [now apply wordchar_f|]. unfold isLetterOrDigit, isLetter, isDecimalDigit, isUppercaseLetter, isLowercaseLetter, in_range. lia. }
  assert (F2 : forall x, 0 <= x < 128 -> r = x -> first_byte s = x) by (intros x Hx Ex; destruct Hr; lia).
  cbn [loop]. unfold qualifiedName_step at 1.
  unfold bind at 1. rewrite (bind_ok _ (at_skip_while H (word_ascii HW) Hh F1)). cbv beta iota zeta.
  assert ((r =? "-"%ch) && tok_eqb token TIdentifier = false) as ->.
  { cbn in HT. destruct HT as [<-|[<-|[<-|[]]]]; cbn; rewrite ?andb_false_r; auto. specialize (E3 eq_refl). destruct (Z.eqb_spec r "-"%ch) as [X|X]; [|reflexivity]. apply F2 in X; [congruence|lia]. }
  destruct (Z.eqb_spec r ":"%ch) as [Ec|Ec]; [|reflexivity]. cbn [negb]. apply F2 in Ec; [|lia].
  destruct s as [|b s]; [discriminate|]. cbn in Ec. subst b. pose proof (at_fwd H) as H1. pose proof (at_fwd1 H1) as H2.
  destruct (E5 s eq_refl) as (r' & w' & Hh' & Hr'). assert (w = 1) as -> by (cbn in Hh; congruence).
  unfold bind at 1, getPos, ask. unfold bind at 1, advance, modify. fold (fwd 1 (fwd (zlen t) c)).
  rewrite (bind_ok _ (at_peek H2 Hh')). cbv beta iota.
  destruct (Z.eqb_spec r' ":"%ch) as [Ed|Ed].
  { destruct s as [|b s]; [cbn in Hr'; lia|]. assert (b = ":"%ch) as -> by (cbn in Hr'; lia). destruct E4. now exists s. }
  cbn [negb]. reflexivity.
Qed.
Lemma qname_loop start token w : In token [TIdentifier; TTypeName; TVariable] -> qualified (first_of token) w -> exists h t, w = h :: t /\ first_of token h /\
  forall n c s, at_ c (t ++ s) -> name_end token s -> (List.length t < n)%nat ->
  loop n (qualifiedName_step start token) (false, false) c = Ok false (fwd (zlen t) c).
Proof.
  intros HT H. induction H as [h t Hf Ht|h t rest Hf Ht Hr (h' & t' & -> & Hf' & IH)].
  - exists h, t. split; [reflexivity|]. split; [exact Hf|]. intros n c s H HE Hn. destruct n; [lia|]. eapply qname_end; eauto.
  - exists h. eexists. split; [reflexivity|]. split; [exact Hf|]. intros n c s H HE Hn. destruct n as [|n]; [lia|]. cbn [loop]. unfold qualifiedName_step at 1.
    destruct (first_facts HT Hf') as (Ha & Hb & Hb' & Hc). rewrite <- app_assoc in H. cbn [app] in H.
    unfold bind at 1. rewrite (bind_ok _ (at_skip_while H (word_ascii Ht) (@head_ascii ":"%ch _ ltac:(lia)) eq_refl)). cbv beta iota zeta.
    change (":"%ch =? "-"%ch) with false. cbn [andb]. change (negb (":"%ch =? ":"%ch)) with false. cbv iota.
    pose proof (at_fwd H) as H2. pose proof (at_fwd1 H2) as H3. pose proof (at_fwd1 H3) as H4.
    unfold bind at 1, getPos, ask. unfold bind at 1, advance, modify. fold (fwd 1 (fwd (zlen t) c)).
    rewrite (bind_ok _ (at_peek H3 (@head_ascii ":"%ch _ ltac:(lia)))). cbv beta iota. change (negb (":"%ch =? ":"%ch)) with false. cbv iota.
    unfold bind at 1, advance, modify. fold (fwd 1 (fwd 1 (fwd (zlen t) c))).
    rewrite (bind_ok _ (at_peek H4 (@head_ascii h' _ Ha))). cbv beta iota. rewrite Hc. cbn [andb negb].
    unfold bind at 1, advance, modify, ret. fold (fwd 1 (fwd 1 (fwd 1 (fwd (zlen t) c)))).
    replace (h' =? "_"%ch) with false by lia.
    erewrite IH; [|exact (at_fwd1 H4)|exact HE|rewrite app_length in Hn; cbn in Hn; lia].
    rewrite !fwd_fwd. do 2 f_equal. rewrite zlen_app, !zlen_cons. lia.
Qed.
(** the keyword or name a word is *)
Definition name_token (o : opts) (token : tok) (w : str) : tok * tval :=
  match token with
  | TIdentifier =>
    match kw_lookup w with
    | Some TBoolean => (TBoolean, VBool (str_eqb w (lit "true")))
    | Some TDefault => (TDefault, VDefault)
    | Some TPlan => (if o_tasks o then TPlan else TIdentifier, VStr w)
    | Some kw => (kw, VStr w)
    | None => (TIdentifier, VStr w)
    end
  | _ => (token, VStr w)
  end.
(** [pre] is what was read before the name: nothing, ::, $ or $:: *)
Lemma consume_name c0 token pre w s : at_ c0 ((pre ++ w) ++ s) -> In token [TIdentifier; TTypeName; TVariable] ->
  qualified (first_of token) w -> name_end token s -> (token = TVariable -> exists p, pre = "$"%ch :: p) ->
  let word := if tok_eqb token TVariable then skipn 1 (pre ++ w) else pre ++ w in
  consumeQualifiedName (c_pos c0) token (fwd (zlen pre + 1) c0)
  = Ok tt (lexed (fst (name_token (c_opts c0) token word)) (snd (name_token (c_opts c0) token word)) (pre ++ w) c0).
Proof.
  intros H HT HQ HE Hv word. destruct (@qname_loop (c_pos c0) token w HT HQ) as (h & t & -> & Hf & L).
  pose proof (at_app H) as H1. cbn [app] in H1. pose proof (at_fwd1 H1) as H2. unfold consumeQualifiedName.
  rewrite fwd_fwd in H2.
  erewrite bind_ok; [|unfold while; eapply L; [exact H2|exact HE|exact (loop_fuel_enough H2)]].
  rewrite fwd_fwd. replace (zlen pre + 1 + zlen t) with (zlen (pre ++ h :: t)) by (rewrite zlen_app, zlen_cons; lia).
  unfold word, lexed. cbn in HT. destruct HT as [<-|[<-|[<-|[]]]].
  - change (tok_eqb TIdentifier TVariable) with false. cbv iota. rewrite (bind_ok _ (at_from H eq_refl)).
    change (tok_eqb TIdentifier TIdentifier) with true. cbv iota. unfold name_token. destruct (kw_lookup _) as [k|]; [|reflexivity]. destruct k; reflexivity.
  - change (tok_eqb TTypeName TVariable) with false. cbv iota. rewrite (bind_ok _ (at_from H eq_refl)). reflexivity.
  - change (tok_eqb TVariable TVariable) with true. cbv iota. destruct (Hv eq_refl) as (p & ->). cbn [app] in H |- *.
    replace (zlen ("$"%ch :: p ++ h :: t)) with (1 + zlen (p ++ h :: t)) by now rewrite zlen_cons.
    rewrite <- fwd_fwd.
    rewrite (bind_ok _ (@at_from (fwd 1 c0) (p ++ h :: t) s (c_pos c0 + 1) (at_fwd1 (c := c0) H) eq_refl)). reflexivity.
Qed.
Lemma qualified_head first w : qualified first w -> exists h t, w = h :: t /\ first h.
Proof. intros [h t ? ?|h t rest ? ? ?]; exists h; eexists; eauto. Qed.
Lemma lexes_name rec scan c0 w s : at_ c0 (w ++ s) -> qualified lower w -> name_end TIdentifier s ->
  lexes rec scan w c0 (lexed (fst (name_token (c_opts c0) TIdentifier w)) (snd (name_token (c_opts c0) TIdentifier w)) w c0).
Proof.
  intros H HQ HE. destruct (qualified_head HQ) as (h & t & Ew & Hh). unfold lexes, lex_token. replace (first_byte w) with h by now rewrite Ew.
  unfold lower in Hh. replace (in_range "1"%ch h "9"%ch) with false by (unfold in_range; lia).
  replace (isUppercaseLetter h) with false by (unfold isUppercaseLetter, in_range; lia). replace (isLowercaseLetter h) with true by (unfold isLowercaseLetter, in_range; lia).
  exact (@consume_name c0 TIdentifier [] w s H (or_introl eq_refl) HQ HE ltac:(discriminate)).
Qed.
Lemma lexes_type rec scan c0 w s : at_ c0 (w ++ s) -> qualified upper w -> name_end TTypeName s ->
  lexes rec scan w c0 (lexed TTypeName (VStr w) w c0).
Proof.
  intros H HQ HE. destruct (qualified_head HQ) as (h & t & Ew & Hh). unfold lexes, lex_token. replace (first_byte w) with h by now rewrite Ew.
  unfold upper in Hh. replace (in_range "1"%ch h "9"%ch) with false by (unfold in_range; lia).
  replace (isUppercaseLetter h) with true by (unfold isUppercaseLetter, in_range; lia).
  exact (@consume_name c0 TTypeName [] w s H ltac:(cbn; auto) HQ HE ltac:(discriminate)).
Qed.
Lemma at_colons c0 w s : at_ c0 ((lit "::" ++ w) ++ s) -> at_ c0 (":"%ch :: ":"%ch :: w ++ s).
Proof. exact (fun H => H). Qed.
Lemma lexes_global rec scan c0 token w s : at_ c0 ((lit "::" ++ w) ++ s) -> token = TIdentifier \/ token = TTypeName -> qualified (first_of token) w -> name_end token s ->
  lexes rec scan (lit "::" ++ w) c0 (lexed (fst (name_token (c_opts c0) token (lit "::" ++ w))) (snd (name_token (c_opts c0) token (lit "::" ++ w))) (lit "::" ++ w) c0).
Proof.
  intros H0 HT HQ HE. destruct (qualified_head HQ) as (h & t & Ew & Hh). pose proof (at_colons H0) as H.
  match goal with |- lexes _ _ _ _ ?c' => change (lex_colon (c_pos c0) (fwd 1 c0) = Ok tt c') end.
  unfold lex_colon. unfold bind at 1, setToken, modify. pose proof (at_fwd1 H) as H1. pose proof (at_fwd1 H1) as H2.
  set (c1 := with_tok TColon VNil (fwd 1 c0)). assert (A1 : at_ c1 (":"%ch :: w ++ s)) by (eapply at_state; [exact H1|reflexivity|reflexivity]).
  rewrite (bind_ok _ (at_peek A1 (@head_ascii ":"%ch _ ltac:(lia)))). cbv beta iota. change (":"%ch =? ":"%ch) with true. cbv iota.
  unfold bind at 1, advance, modify. fold (fwd 1 c1). pose proof (at_fwd1 A1) as A2. rewrite Ew in A2. cbn [app] in A2.
  assert (Ha : 0 <= h < 128) by (unfold first_of, upper, lower in Hh; destruct HT; subst; cbn in Hh; lia).
  rewrite (bind_ok _ (at_next A2 (@head_ascii h _ Ha))). cbv beta iota.
  assert (K : In token [TIdentifier; TTypeName; TVariable]) by (cbn; destruct HT; auto).
  assert (Kv : token = TVariable -> exists p, lit "::" = "$"%ch :: p) by (destruct HT; subst; discriminate).
  set (c2 := with_tok TColon VNil c0). assert (A0 : at_ c2 ((lit "::" ++ w) ++ s)) by (eapply at_state; [exact H0|reflexivity|reflexivity]).
  pose proof (@consume_name c2 token (lit "::") w s A0 K HQ HE Kv) as C. cbv zeta in C.
  assert (tok_eqb token TVariable = false) as Ev by (destruct HT; subst; reflexivity). rewrite Ev in C.
  replace (fwd 1 (fwd 1 c1)) with (fwd (zlen (lit "::") + 1) c2) by (unfold c1, c2; change (zlen (lit "::")) with 2; unfold fwd, with_pos, with_tok;
    cbn [c_pos c_text c_opts c_nls c_tok c_bol c_tsp c_val c_radix c_names c_defs]; f_equal; lia).
  change (c_pos c0) with (c_pos c2). destruct HT as [-> | ->]; cbn [first_of] in Hh.
  - replace (isUppercaseLetter h) with false by (unfold isUppercaseLetter, in_range, lower in *; lia). replace (isLowercaseLetter h) with true by (unfold isLowercaseLetter, in_range, lower in *; lia). exact C.
  - replace (isUppercaseLetter h) with true by (unfold isUppercaseLetter, in_range, upper in *; lia). exact C.
Qed.
Lemma lexes_var rec scan c0 w s : at_ c0 (("$"%ch :: w) ++ s) -> qualified lower w -> name_end TVariable s ->
  lexes rec scan ("$"%ch :: w) c0 (lexed TVariable (VStr w) ("$"%ch :: w) c0).
Proof.
  intros H HQ HE. destruct (qualified_head HQ) as (h & t & Ew & Hh).
  match goal with |- lexes _ _ _ _ ?c' => change (lex_variable (c_pos c0) (fwd 1 c0) = Ok tt c') end.
  unfold lex_variable. cbn [app] in H. pose proof (at_fwd1 H) as H1. rewrite Ew in H1. cbn [app] in H1. unfold lower in Hh.
  rewrite (bind_ok _ (at_peek H1 (@head_ascii h _ ltac:(lia)))). cbv beta iota. replace (h =? ":"%ch) with false by lia.
  unfold bind at 1, ret. replace (isLowercaseLetter h) with true by (unfold isLowercaseLetter, in_range in *; lia).
  unfold bind at 1, advance, modify. fold (fwd 1 (fwd 1 c0)). rewrite fwd_fwd.
  exact (@consume_name c0 TVariable ["$"%ch] w s H ltac:(cbn; auto) HQ HE (fun _ => ex_intro _ [] eq_refl)).
Qed.
Lemma lexes_global_var rec scan c0 w s : at_ c0 ((lit "$::" ++ w) ++ s) -> qualified lower w -> name_end TVariable s ->
  lexes rec scan (lit "$::" ++ w) c0 (lexed TVariable (VStr (lit "::" ++ w)) (lit "$::" ++ w) c0).
Proof.
  intros H0 HQ HE. destruct (qualified_head HQ) as (h & t & Ew & Hh).
  match goal with |- lexes _ _ _ _ ?c' => change (lex_variable (c_pos c0) (fwd 1 c0) = Ok tt c') end.
  assert (H : at_ c0 ("$"%ch :: ":"%ch :: ":"%ch :: w ++ s)) by exact H0.
  unfold lex_variable. pose proof (at_fwd1 H) as H1. pose proof (at_fwd1 H1) as H2. pose proof (at_fwd1 H2) as H3. unfold lower in Hh.
  rewrite (bind_ok _ (at_peek H1 (@head_ascii ":"%ch _ ltac:(lia)))). cbv beta iota. change (":"%ch =? ":"%ch) with true. cbv iota.
  unfold bind at 1. unfold bind at 1, advance at 1, modify at 1. fold (fwd 1 (fwd 1 c0)).
  rewrite (bind_ok _ (at_peek H2 (@head_ascii ":"%ch _ ltac:(lia)))). cbv beta iota. change (negb (":"%ch =? ":"%ch)) with false. cbv iota.
  unfold bind at 1, advance at 1, modify at 1. fold (fwd 1 (fwd 1 (fwd 1 c0))). rewrite Ew in H3. cbn [app] in H3.
  rewrite (at_peek H3 (@head_ascii h _ ltac:(lia))). cbv beta iota.
  replace (isLowercaseLetter h) with true by (unfold isLowercaseLetter, in_range in *; lia).
  unfold bind at 1, advance, modify. fold (fwd 1 (fwd 1 (fwd 1 (fwd 1 c0)))). rewrite !fwd_fwd.
  exact (@consume_name c0 TVariable (lit "$::") w s H0 ltac:(cbn; auto) HQ HE (fun _ => ex_intro _ (lit "::") eq_refl)).
Qed.
Lemma lexes_numeric_var rec scan c0 ds s : at_ c0 (("$"%ch :: decimals ds) ++ s) -> ds <> [] -> Forall (fun d => 0 <= d <= 9) ds -> value 10 ds < 2 ^ 63 ->
  ascii_head s -> ~ digit (first_byte s) -> (zlen ds = 1 -> ~ one_of (first_byte s) "+-") ->
  lexes rec scan ("$"%ch :: decimals ds) c0 (lexed TVariable (VInt (value 10 ds)) ("$"%ch :: decimals ds) c0).
Proof.
  intros H Hn HF HV Ha Hd Hs. destruct ds as [|d ds]; [congruence|]. inversion HF as [|? ? Hr HF']; subst. destruct (ascii_head_rune Ha) as (w & Hh).
  assert (E1 : isDecimalDigit (first_byte s) = false) by (rewrite <- digit_b in Hd; destruct (isDecimalDigit _); congruence).
  match goal with |- lexes _ _ _ _ ?c' => change (lex_variable (c_pos c0) (fwd 1 c0) = Ok tt c') end.
  pose proof H as H'. change (decimals (d :: ds)) with ((48 + d) :: decimals ds) in H. cbn [app] in H. pose proof (at_fwd1 H) as H1. pose proof (at_fwd1 H1) as H2. unfold lex_variable.
  rewrite (bind_ok _ (at_peek H1 (@head_ascii (48 + d) _ ltac:(lia)))). cbv beta iota. replace (48 + d =? ":"%ch) with false by lia.
  unfold bind at 1, ret. replace (isLowercaseLetter (48 + d)) with false by (unfold isLowercaseLetter, in_range in *; lia).
  replace (isDecimalDigit (48 + d)) with true by (unfold isDecimalDigit, in_range in *; lia).
  unfold bind at 1, advance, modify. fold (fwd 1 (fwd 1 c0)). assert (Hs' : decimals ds = [] -> first_byte s <> "+"%ch /\ first_byte s <> "-"%ch) by (intros X; destruct ds; [|discriminate X]; specialize (Hs eq_refl); unfold one_of in Hs; cbn in Hs; lia).
  rewrite (bind_ok _ (at_skipDecimalDigits H2 (decimals_digits HF') Hh E1 Hs')).
  rewrite !fwd_fwd. replace (1 + (1 + zlen (decimals ds))) with (1 + zlen (decimals (d :: ds))) by (change (decimals (d :: ds)) with ((48 + d) :: decimals ds); rewrite zlen_cons; lia).
  rewrite <- fwd_fwd. rewrite (bind_ok _ (@at_from (fwd 1 c0) (decimals (d :: ds)) s (c_pos c0 + 1) (at_fwd1 (c := c0) H') eq_refl)).
  rewrite parse_int_decimals by assumption. unfold lexed. rewrite zlen_cons, <- fwd_fwd. reflexivity.
Qed.
