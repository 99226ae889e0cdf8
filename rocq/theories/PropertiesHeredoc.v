(** * PropertiesHeredoc: what heredocs say (C29, C48)

    [declaration], [content], [ending] and [says] are in SpecHeredoc.v. *)
From Verif Require Import Base Float Tokens Ast Ctx Lexer Parser Api Utf8Facts SpecReader LexBase SpecLex GapProof LexStrings Evals SpecHeredoc HeredocProof SpecParse Conform PropertiesTree.
From Coq Require Import Lia.

(** [c] is about to read [s], and no heredoc of the line is pending *)
Definition about_to_read (c : ctx) (s : str) : Prop :=
  o_factory (c_opts c) = true /\ c_nls c = -1 /\ exists before, c_text c = before ++ s /\ c_pos c = zlen before.
(** The next token is a heredoc with the given syntax and text. The lexer goes on
    [n] bytes further on, and at the next newline it goes on [m] bytes further on. *)
Definition reads_heredoc (c : ctx) (syntax text : str) (n m : Z) : Prop :=
  exists fuel0, forall fuel, (fuel0 <= fuel)%nat -> exists c' p p', run fuel FNextToken c = Ok tt c' /\
    c_tok c' = THeredoc /\ c_val c' = VExpr (EHeredoc p syntax (EString p' text)) /\ c_pos c' = c_pos c + n /\ c_nls c' = c_pos c + m /\
    c_text c' = c_text c /\ c_names c' = c_names c /\ c_defs c' = c_defs c.
(** the source of a heredoc: [tail] is the rest of the line of the declaration,
    [s] is what comes after the line of the end tag *)
Definition heredoc_source (d : declaration) (tail : list Z) (lines : list (list Z)) (e : ending) (s : str) : str :=
  lit "@(" ++ encode (declaration_text d) ++ encode tail ++ 10 :: encode (content lines) ++ encode (ending_text (d_tag d) e) ++ s.

(** ** C48: margins, dashes, escapes, syntax *)
Theorem C48_heredoc_says : forall c d tail lines e s body out,
  declared d -> line_rest tail -> Forall (content_line (d_tag d)) lines -> ended e -> (s = [] \/ exists s', s = 10 :: s') ->
  cut_end lines e body -> says (margin e) (match d_flags d with Some f => f | None => [] end) (d_quoted d) true body out ->
  about_to_read c (heredoc_source d tail lines e s) ->
  reads_heredoc c (encode (match d_syntax d with Some x => x | None => [] end)) (encode out)
    (2 + zlen (encode (declaration_text d))) (zlen (heredoc_source d tail lines e []) + 1).
Proof.
  intros c d tail ls e s1 bd out HD HR HL HE Hs HB HS (HF & HN & HA).
  assert (H : at_ c (heredoc_source d tail ls e s1)) by exact HA. unfold heredoc_source in H.
  assert (HV : visible (heredoc_source d tail ls e s1) "@"%ch 1) by (apply visible_solid; [reflexivity|vm_compute; repeat split; try discriminate; intuition discriminate]).
  destruct (@gap_skip false [] c (heredoc_source d tail ls e s1) "@"%ch 1) as (b & Hb & ES); [constructor|exact H|exact HN|exact HV|].
  cbn in Hb. subst b. change (zlen (@nil Z) + 1) with 1 in ES. change (zlen (@nil Z)) with 0 in ES. rewrite with_bol_fwd, with_bol_id, Z.add_0_r in ES.
  set (c2 := fwd 2 (with_tsp (c_pos c) c)).
  assert (H2 : at_ c2 (encode (declaration_text d) ++ encode tail ++ 10 :: encode (content ls) ++ encode (ending_text (d_tag d) e) ++ s1)).
  { pose proof (at_fwd1 (at_fwd1 H)) as X. eapply at_state; [exact X|reflexivity|cbn; lia]. }
  assert (CP : content_pos c2 d tail = c_pos c + 2 + zlen (encode (declaration_text d)) + zlen (encode tail) + 1).
  { unfold content_pos. change (c_nls c2) with (c_nls c). rewrite HN. reflexivity. }
  assert (HC : at_ (with_pos (content_pos c2 d tail) c2) (encode (content ls) ++ encode (ending_text (d_tag d) e) ++ s1)).
  { pose proof (at_fwd1 (at_fwd (at_fwd H2))) as X. eapply at_state; [exact X|reflexivity|]. rewrite CP. cbn. lia. }
  destruct (@heredoc_ok c2 d tail _ _ ls e s1 bd out H2 HD HR HF eq_refl HC Hs HL HE HB HS) as (n0 & EV). { change (c_nls c2) with (c_nls c). rewrite HN. lia. }
  exists (S n0). intros n Hn. destruct n as [|n]; [lia|]. specialize (EV n ltac:(lia)). eexists _, _, _. split.
  { cbn [run body]. unfold nextToken_body. unfold bind at 1, getPos, ask. rewrite (bind_ok _ ES). cbv beta iota. unfold bind at 1, modify at 1.
    transitivity (lex_at (run n) (fwd 1 (with_tsp (c_pos c) c))); [reflexivity|]. unfold lex_at.
    assert (H1 : at_ (fwd 1 (with_tsp (c_pos c) c)) ("("%ch :: encode (declaration_text d) ++ encode tail ++ 10 :: encode (content ls) ++ encode (ending_text (d_tag d) e) ++ s1)).
    { eapply at_state; [exact (at_fwd1 H)|reflexivity|reflexivity]. }
    rewrite (bind_ok _ (at_peek H1 (@head_ascii "("%ch _ ltac:(lia)))). cbv beta iota. change ("("%ch =? "@"%ch) with false. change ("("%ch =? "("%ch) with true. cbv iota.
    unfold bind at 1, advance, modify. change (with_pos (c_pos (fwd 1 (with_tsp (c_pos c) c)) + 1) (fwd 1 (with_tsp (c_pos c) c))) with (fwd 1 (fwd 1 (with_tsp (c_pos c) c))).
    rewrite fwd_fwd. exact EV. }
  unfold heredoc_node. cbn [with_tok with_nls with_pos c_tok c_val c_pos c_nls c_text c_names c_defs]. split; [reflexivity|]. split; [reflexivity|].
  split; [cbn; lia|]. split; [|repeat split; reflexivity]. rewrite CP. unfold heredoc_source. rewrite app_nil_r. change (lit "@(") with ["@"%ch; "("%ch]. cbn [app]. rewrite !zlen_cons, !zlen_app, !zlen_cons, !zlen_app. lia.
Qed.

(** ** C29: without flags, quotes and margin the text is verbatim *)
Lemma says_verbatim bol src : Forall rune_ok src -> says 0 [] false bol src src.
Proof.
  assert (NF : forall r, ~ is_flag [] r) by (intros r [[[] _]|[_ []]]).
  assert (X : forall n bol src, (List.length src <= n)%nat -> Forall rune_ok src -> says 0 [] false bol src src).
  { clear bol src. intros n. induction n as [|n IH]; intros bol src L HF.
    - destruct src; [|cbn in L; lia]. destruct bol; [apply (@says_strip 0 [] false []); auto|]; constructor.
    - enough (Y : says 0 [] false false src src). { destruct bol; [apply (@says_strip 0 [] false []); auto|exact Y]. }
      destruct src as [|r src]; [constructor|]. cbn [List.length] in L. inversion HF; subst.
      destruct (Z.eq_dec r 10) as [->|N]; [apply says_newline, IH; [lia|assumption]|].
      destruct (Z.eq_dec r "\"%ch) as [->|N2].
      + destruct src as [|x src]; [apply says_last|]. cbn [List.length] in L. match goal with H : Forall rune_ok (x :: src) |- _ => inversion H; subst end.
        apply says_backslash; auto; [discriminate|]. apply IH; [lia|assumption].
      + apply says_rune; auto; [discriminate|]. apply IH; [lia|assumption]. }
  intros HF. eapply X; [apply Nat.le_refl|exact HF].
Qed.
(** The whole claim: any content whatever, as long as no line of it is the end tag.
    It is false, see below, and holds if no line begins with [|] or [-]. *)
Theorem C29_verbatim_partial : forall c tag tail lines before after s,
  declared (mkdeclaration false tag None None) -> line_rest tail -> Forall (content_line tag) lines -> Forall space before -> Forall space after ->
  (s = [] \/ exists s', s = 10 :: s') ->
  about_to_read c (lit "@(" ++ encode tag ++ lit ")" ++ encode tail ++ 10 :: encode (content lines) ++ encode (before ++ tag ++ after) ++ s) ->
  reads_heredoc c [] (encode (content lines)) (zlen (encode tag) + 3)
    (zlen (encode tag) + 3 + zlen (encode tail) + 1 + zlen (encode (content lines)) + zlen (encode (before ++ tag ++ after)) + 1).
Proof.
  intros c tag tail ls w1 w2 s HD HR HL H1 H2 Hs HA.
  pose proof (@C48_heredoc_says c (mkdeclaration false tag None None) tail ls (mkending w1 None None w2) s (content ls) (content ls) HD HR HL) as X.
  assert (DT : encode (declaration_text (mkdeclaration false tag None None)) = encode tag ++ lit ")").
  { unfold declaration_text. cbn [d_quoted d_tag d_syntax d_flags app]. rewrite encode_app. reflexivity. }
  assert (ET : ending_text tag (mkending w1 None None w2) = w1 ++ tag ++ w2) by reflexivity.
  unfold heredoc_source in X. cbn [d_tag d_syntax d_flags d_quoted] in X. rewrite DT, ET in X.
  assert (E : forall a b : Z, a = b -> a = b) by auto.
  replace (zlen (encode tag) + 3) with (2 + zlen (encode tag ++ lit ")")) by (rewrite zlen_app; change (zlen (lit ")")) with 1; lia).
  match goal with |- reads_heredoc _ _ _ _ ?m => match type of X with context [reads_heredoc _ _ _ _ ?m'] => replace m with m' end end.
  2: { rewrite app_nil_r. change (lit "@(") with ["@"%ch; "("%ch]. cbn [app]. rewrite !zlen_cons, !zlen_app, !zlen_cons, !zlen_app. lia. }
  apply X.
  - repeat split; try assumption; intros ? Y; discriminate Y.
  - exact Hs.
  - reflexivity.
  - unfold margin. cbn [e_margin]. apply says_verbatim. exact (content_ok HL).
  - rewrite <- (app_assoc (encode tag)). exact HA.
Qed.

(** ** The whole claim is false: a line that begins with a bar sets a margin *)
Definition lines_text (l : list string) : str := flat_map (fun x => lit x ++ [10]) l.
Theorem C29_refuted : exists p body q q' r c', parse_run conf_fuel (createParser puppet) (lines_text ["@(X)"; "  | a"; "  b"; "X"]%string) false
    = Ok (EProgram p body []) c' /\ body = EBlock q' [EHeredoc q [] (EString r (lines_text ["| a"; "b"]%string))].
Proof. do 6 eexists. split; [vm_compute; reflexivity|reflexivity]. Qed.

(** ** Cases *)
Lemma runes_ok s : Forall (fun r => 0 < r < 128) s -> Forall rune_ok s.
Proof. apply Forall_impl. intros r H. apply rune_ok_ascii. lia. Qed.
Ltac nsp := intros [X|[X|X]]; discriminate X.
Ltac spaces := repeat (apply Forall_cons; [unfold space, tab_or_space; auto|]); apply Forall_nil.
Ltac ok1 := split; [reflexivity|split; discriminate].
Ltac each := repeat constructor; try (apply rune_ok_ascii; lia); try discriminate; try lia.
(** [@("A B":json/tL)], a margin, a dash and escapes *)
Definition case_declaration : declaration := mkdeclaration true (lit "A B") (Some (lit "json")) (Some (lit "tL")).
Definition case_lines : list (list Z) := [lit "  a\tb\"; lit "  c\n"].
Definition case_ending : ending := mkending [32; 32] (Some [32]) (Some []) [].
Example C48_case : declared case_declaration /\ line_rest (lit " , $x # note") /\ Forall (content_line (lit "A B")) case_lines /\ ended case_ending
  /\ cut_end case_lines case_ending (lit "  a\tb\" ++ 10 :: lit "  c\n")
  /\ says 2 (lit "tL") true true (lit "  a\tb\" ++ 10 :: lit "  c\n") (lit "a" ++ 9 :: lit "bc\n").
Proof.
  assert (NB : forall l tag r t, tag = r :: t -> (exists w x l', Forall space w /\ l = w ++ x :: l' /\ ~ space x /\ x <> r /\ x <> "|"%ch /\ x <> "-"%ch) -> ~ space r -> Forall (fun r => rune_ok r /\ r <> 10) l -> content_line tag l).
  { intros l tag r t -> (w & x & l' & Hw & -> & Hx & H1 & H2 & H3) Hr HF. 
    assert (U : forall w1 w2 y z a b, Forall space w1 -> Forall space w2 -> ~ space y -> ~ space z -> w1 ++ y :: a = w2 ++ z :: b -> y = z).
    { induction w1 as [|p w1 IH]; intros w2 y z a b F1 F2 Ny Nz E; destruct w2 as [|q w2]; cbn in E; inversion E; subst; auto.
      - inversion F2; subst. contradiction.
      - inversion F1; subst. contradiction.
      - inversion F1; inversion F2; subst. eapply IH; eauto. }
    split; [exact HF|]. split.
    - intros (w1 & w2 & F1 & F2 & E). cbn [app] in E. apply H1. eapply (U w w1); eauto.
    - intros (w1 & m & l2 & F1 & Hm & E). assert (x = m). { eapply (U w w1); eauto. destruct Hm; subst; nsp. } destruct Hm; congruence. }
  repeat split.
  - exists "A"%ch, (lit " B"). repeat split; try discriminate. nsp.
  - cbn [case_declaration d_quoted d_tag]. cbn. each.
  - intros s E. cbn in E. inversion E; subst. cbn. unfold plain_in_declaration. each.
  - intros s E. cbn in E. inversion E; subst. cbn. repeat constructor; cbn; tauto.
  - apply (@lr_comment (lit " , $x ") (lit " note")); cbn; each.
  - constructor; [|constructor; [|constructor]].
    + eapply NB; [reflexivity| |nsp|cbn; each]. exists [32; 32], "a"%ch, (lit "\tb\"). repeat split; try discriminate; [spaces|nsp].
    + eapply NB; [reflexivity| |nsp|cbn; each]. exists [32; 32], "c"%ch, (lit "\n"). repeat split; try discriminate; [spaces|nsp].
  - cbn. spaces.
  - intros w E. cbn in E. inversion E; subst. spaces.
  - intros w E. cbn in E. inversion E; subst. constructor.
  - constructor.
  - exists (lit "  a\tb\" ++ 10 :: lit "  c\n"). split; [reflexivity|]. right. split; [|reflexivity]. intros (b & E). apply (f_equal (@rev Z)) in E. rewrite (rev_app_distr b) in E. discriminate E.
  - assert (FT : is_flag (lit "tL") "t"%ch) by (left; split; [left; reflexivity|discriminate]).
    assert (FL : is_flag (lit "tL") 10) by (right; split; [reflexivity|right; left; reflexivity]).
    assert (FN : ~ is_flag (lit "tL") "n"%ch) by (intros [[X _]|[X _]]; [cbn in X; intuition discriminate|discriminate]).
    change (lit "  a\tb\" ++ 10 :: lit "  c\n") with ([32; 32] ++ "a"%ch :: "\"%ch :: "t"%ch :: "b"%ch :: "\"%ch :: 10 :: ([32; 32] ++ "c"%ch :: "\"%ch :: "n"%ch :: [])).
    apply says_strip; [reflexivity|spaces|].
    apply says_rune; try discriminate; [ok1|].
    eapply (@says_escape _ _ _ "t"%ch 9); [exact FT|unfold simple_escape; auto|].
    apply says_rune; try discriminate; [ok1|].
    apply says_join; [exact FL|]. apply says_strip; [reflexivity|spaces|].
    apply says_rune; try discriminate; [ok1|].
    apply says_backslash; try discriminate; [ok1|exact FN|constructor].
Qed.
Example C29_case : declared (mkdeclaration false (lit "END") None None) /\ about_to_read (start_ctx (lines_text ["@(END)"; "a $b \n"; "END"]%string) (createParser puppet))
  (lit "@(" ++ encode (lit "END") ++ lit ")" ++ encode [] ++ 10 :: encode (content [lit "a $b \n"]) ++ encode ([] ++ lit "END" ++ []) ++ [10]).
Proof.
  split; [|split; [reflexivity|split; [reflexivity|exists []; split; reflexivity]]]. split.
  - exists "E"%ch, (lit "ND"). repeat split; try discriminate. nsp.
  - split; [|split; intros s E; discriminate E]. cbn. unfold plain_in_declaration. each.
Qed.
Print Assumptions C48_heredoc_says.
Print Assumptions C29_verbatim_partial.
Print Assumptions C29_refuted.
