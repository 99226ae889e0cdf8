(** * PropertiesEpp: the text of EPP templates (C28)

    [epp_text] (SpecText.v) says what a template without tags says. *)
From Verif Require Import Base Float Tokens Ast Ctx Lexer Parser Api Utf8Facts SpecReader LexBase SpecLex GapProof LexCur SpecParse ParseProof EppProof.
From Coq Require Import Lia.

Lemma next_at_eof n c : (1 <= n)%nat -> at_ c [] -> c_nls c = -1 ->
  exists c', run n FNextToken c = Ok tt c' /\ c_tok c' = TEnd /\ c_pos c' = c_pos c /\ c_defs c' = c_defs c.
Proof.
  intros Hn H HN. destruct n as [|n]; [lia|]. cbn [run body]. destruct (@end_gap_skip [] c (end_plain gap_nil) H HN) as (b & E).
  eexists. split.
  - unfold nextToken_body. unfold bind at 1, getPos, ask. rewrite (bind_ok _ E). unfold bind, modify. rewrite lex_token_end. reflexivity.
  - cbn. split; [reflexivity|]. split; [lia|reflexivity].
Qed.

(** ** C28 *)
(** the tree of a template that is the text [out], where the source has [n]
    bytes: one node that renders the text *)
Definition template (n : Z) (out : list Z) : expr :=
  let p := mkpos 0 n in ELambda p [] (EEpp p true (EBlock p [ERenderString p (encode out)])) None.
Theorem C28_text_renders_itself : forall o c src out single fuel,
  parser_state o c -> o_epp o = true -> epp_text src out -> (1 <= fuel)%nat ->
  exists c', parse_run fuel c (encode src) single =
    Ok (if single then template (zlen (encode src)) out else EProgram (mkpos 0 (zlen (encode src))) (template (zlen (encode src)) out) []) c'.
Proof.
  intros o c src out single fuel HP HO HT Hf.
  assert (E0 : o_epp (c_opts c) = true).
  { enough (c_opts c = o) as -> by exact HO. exact (proj1 (parser_state_gate HP)). }
  assert (X : exists c', parseTop (run fuel) single (start_ctx (encode src) c) = Ok (template (zlen (encode src)) out) c' /\ c_pos c' = zlen (encode src) /\ c_defs c' = []).
  { set (c0 := start_ctx (encode src) c).
    assert (H0 : at_ c0 (encode src)) by (exists []; split; reflexivity).
    unfold parseTop. unfold bind at 1, option_on, ask. change (c_opts c0) with (c_opts c). rewrite E0. unfold consumeEPP.
    assert (HS : said src [] out) by (exists out; split; [exact HT|right; split; [intros (y & X); discriminate X|reflexivity]]).
    unfold bind at 1. unfold bind at 1. rewrite (@epp_loop src out [] c0 HS (or_introl eq_refl)) by (rewrite app_nil_r; exact H0).
    unfold no_text at 1. cbv iota. unfold ret at 1. unfold bind at 1, curTok at 1, ask at 1.
    set (c1 := fwd (zlen (encode src)) c0).
    assert (H1 : at_ c1 []) by (apply at_fwd; rewrite app_nil_r; exact H0).
    assert (P1 : c_pos c1 = zlen (encode src)) by reflexivity.
    destruct (encode out) as [|b bs] eqn:EO; cbn [after_text].
    - change (c_tok (with_tok TEnd VNil c1)) with TEnd. change (tok_eqb TEnd TRenderString) with false. cbv iota. unfold bind at 1, ret at 1.
      unfold bind at 1, curTok, ask. change (c_tok (with_tok TEnd VNil c1)) with TEnd. change (tok_eqb TEnd TEnd) with true. cbv iota.
      exists (with_tok TEnd VNil c1). split; [|split; [exact P1|reflexivity]]. unfold asEppLambda, span, bind, getPos, ask, ret. cbn [with_tok c_pos]. change (c_pos c1) with (zlen (encode src)). rewrite Z.sub_0_r. unfold template. rewrite EO. reflexivity.
    - change (c_tok (with_tok TRenderString (VStr (b :: bs)) c1)) with TRenderString. change (tok_eqb TRenderString TRenderString) with true. cbv iota.
      unfold bind at 1. unfold bind at 1. unfold tokenString at 1. unfold bind at 1. unfold ask at 1. cbn [with_tok c_val]. unfold ret at 1.
      assert (H2 : at_ (with_tok TRenderString (VStr (b :: bs)) c1) []) by (eapply at_state; [exact H1|reflexivity|reflexivity]).
      destruct (@next_at_eof fuel _ Hf H2 eq_refl) as (c2 & E2 & T2 & P2 & D2). unfold bind at 1. rewrite E2. unfold ret at 1.
      unfold bind at 1, curTok, ask. rewrite T2. change (tok_eqb TEnd TEnd) with true. cbv iota.
      assert (P2' : c_pos c2 = zlen (encode src)) by (rewrite P2; exact P1).
      exists c2. split; [|split; [exact P2'|rewrite D2; reflexivity]]. unfold asEppLambda, span, bind, getPos, ask, ret. rewrite P2', Z.sub_0_r. unfold template. rewrite EO. reflexivity. }
  destruct X as (c' & E & P & D). exists c'. unfold parse_run. rewrite E, P, D. destruct single; reflexivity.
Qed.
(** A text with no [<%] and no [%%] in it says itself. *)
Definition has (s p : list Z) : Prop := exists a b, s = a ++ p ++ b.
Theorem C28_untagged_text_is_verbatim : forall rs,
  Forall rune_ok rs -> ~ has rs ["<"%ch; "%"%ch] -> ~ has rs ["%"%ch; "%"%ch] -> epp_text rs rs.
Proof.
  induction rs as [|r rs IH]; intros HF N1 N2; [constructor|]. inversion HF; subst. constructor; [assumption| | |].
  - intros (s & E). apply N1. exists [], s. exact E.
  - intros (s & E). apply N2. exists [], s. exact E.
  - apply IH; [assumption| |]; intros (a & b & E); [apply N1|apply N2]; exists (r :: a), b; cbn [app]; rewrite E; reflexivity.
Qed.
Example C28_case : epp_text (lit "a <%% b %%> c <%# no %> % d") (lit "a <% b %>" ++ lit " c  % d").
Proof.
  Ltac et := first [ apply et_nil | apply et_open | apply et_close
    | apply (@et_comment [32; 110; 111; 32]); [cbn [comment]; repeat (split; [apply LexStrings.rune_ok_ascii; lia|split; [intros (X & _); discriminate X|]]); discriminate|]
    | apply et_rune; [apply LexStrings.rune_ok_ascii; lia|intros (s & X); discriminate X|intros (s & X); discriminate X|]].
  cbn. repeat et.
Qed.
Print Assumptions C28_text_renders_itself.
Print Assumptions C28_untagged_text_is_verbatim.
