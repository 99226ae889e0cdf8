(** * LexPunct: punctuation and strings *)
From Verif Require Import Base Float Tokens Ast Ctx Lexer Parser Utf8Facts SpecReader ReaderProof LexBase SpecLex GapProof LexTokens.
From Coq Require Import Lia ZifyBool.

(** ** Punctuation whose meaning does not depend on the place *)
Definition plain_punct (t : tok) : bool :=
  match t with TLp | TWslp | TLb | TListstart | TLc | TSelc | TPipe | TPipeEnd | TDivide => false | _ => true end.
Ltac dispatch :=
  unfold lexes;
  lazy beta iota zeta delta [lex_token first_byte lit in_range isUppercaseLetter isLowercaseLetter Z.eqb Z.leb Z.compare Pos.compare Pos.compare_cont Pos.eqb andb orb negb
    Z.of_N N_of_ascii N_of_digits N.add N.mul Pos.add Pos.mul Pos.succ].
Lemma op_token_at alts d c s r w : at_ c s -> head_rune s = Some (r, w) -> op_token alts d c = op_choice alts d r w c.
Proof. intros H Hh. unfold op_token. now rewrite (bind_ok _ (at_peek H Hh)). Qed.
Ltac is_closed_z a := match a with Z0 => idtac | Zpos _ => idtac | Zneg _ => idtac end.
Ltac heads := repeat match goal with H : at_ _ (?b :: ?x) |- _ => is_closed_z b;
    lazymatch goal with K : head_rune (b :: x) = _ |- _ => fail | _ => assert (head_rune (b :: x) = Some (b, 1)) by reflexivity end end.
Ltac other HC s :=
  repeat match goal with |- context [first_byte s =? ?k] =>
    destruct (Z.eqb_spec (first_byte s) k) as [E|_]; [exfalso; apply HC; unfold one_of; rewrite E; cbn; tauto|]; cbn [andb orb] end.
Lemma lexed_two t c : with_tok t VNil (fwd 1 (fwd 1 c)) = with_tok t VNil (fwd 2 c).
Proof. now rewrite fwd_fwd. Qed.
Lemma lexed_three t c : with_tok t VNil (fwd 1 (fwd 1 (fwd 1 c))) = with_tok t VNil (fwd 3 c).
Proof. now rewrite !fwd_fwd. Qed.
Ltac punct_step HC s :=
  first [reflexivity | unfold setToken at 1, modify at 1; first [rewrite lexed_three | rewrite lexed_two]; reflexivity |
  match goal with
  | |- bind (setToken ?t) _ ?c = _ =>
    match goal with H : at_ c ?x |- _ => assert (at_ (with_tok t VNil c) x) by (eapply at_state; [exact H|reflexivity|reflexivity]) end;
    unfold bind at 1, setToken at 1, modify at 1
  | H : at_ ?c ?x, E : head_rune ?x = Some _ |- op_token _ _ ?c = _ => rewrite (op_token_at _ _ H E); cbn [op_choice]
  | H : at_ ?c ?x, E : head_rune ?x = Some _ |- bind peek _ ?c = _ => rewrite (bind_ok _ (at_peek H E)); cbv beta iota
  | |- bind (option_on o_epp) _ ?c = _ => unfold bind at 1, option_on at 1, ask at 1; cbv beta
  | |- (if o_epp ?x then _ else _) _ = _ => destruct (o_epp x)
  | |- bind (advance 1) _ ?c = _ => unfold bind at 1, advance at 1, modify at 1; fold (fwd 1 c)
  | |- context [first_byte s =? ?k] =>
    destruct (Z.eqb_spec (first_byte s) k) as [E|_]; [exfalso; apply HC; unfold one_of; rewrite E; cbn; tauto|]; cbn [andb orb]; cbv iota
  | |- context [?a =? ?b] => is_closed_z a; is_closed_z b; let v := eval compute in (a =? b) in change (a =? b) with v; cbn [andb orb negb]; cbv iota
  end].
Ltac punct_steps := match goal with HC : ~ _, _ : ascii_head ?s |- _ => repeat punct_step HC s end.
Lemma lexes_punct rec scan c0 t x s : at_ c0 (lit x ++ s) -> In (t, x) punctuation -> plain_punct t = true ->
  ascii_head s -> ~ clash t (lit x) s -> lexes rec scan (lit x) c0 (lexed t VNil (lit x) c0).
Proof.
  intros H HI HP HA HC. destruct (ascii_head_rune HA) as (w & Hh). unfold punctuation in HI. cbn [In] in HI.
  pose proof (at_fwd1 (c := c0) (b := first_byte (lit x)) (s := skipn 1 (lit x) ++ s)) as H1.
  pose proof (at_fwd1 (c := fwd 1 c0) (b := first_byte (skipn 1 (lit x))) (s := skipn 2 (lit x) ++ s)) as H2.
  pose proof (at_fwd1 (c := fwd 1 (fwd 1 c0)) (b := first_byte (skipn 2 (lit x))) (s := skipn 3 (lit x) ++ s)) as H3.
  repeat (destruct HI as [HI|HI]; [injection HI as <- <-; try discriminate HP; cbn [clash] in HC;
    first [specialize (H1 H) | idtac]; try specialize (H2 H1); try specialize (H3 H2); cbn [first_byte skipn lit app] in H1, H2, H3; cbn [first_byte lit] in HC;
    dispatch; try reflexivity
    |]); [..|destruct HI].
  all: lazy beta iota zeta delta [Z.of_N N_of_ascii N_of_digits N.add N.mul Pos.add Pos.mul Pos.succ] in H1, H2.
  all: heads.
  all: unfold lex_minus, lex_percent, lex_less, lex_pipe, lex_at, lex_colon.
  all: punct_steps.
Qed.
