(** * LexSim: the lexer of NewSimpleLexer against the lexer of a parser

    On a text without a newline, and without either double quotes or dollar
    signs, what a parser's lexer reads is what the simple lexer reads. *)
From Verif Require Import Base Utf8Facts Float Tokens Ast Ctx Lexer Parser.
From Coq Require Import Lia ZifyBool.

Lemma no_byte b p c r w : 0 < b < 128 -> ~ In b (c_text c) -> rune_at p c = inl (r, w) -> r <> b.
Proof.
  intros Hb Hc. unfold rune_at. destruct (len c <=? p); [intros [= <- <-]; lia|]. destruct (p <? 0); [discriminate|].
  pose proof (firstn_skipn (Z.to_nat p) (c_text c)) as HF. destruct (skipn (Z.to_nat p) (c_text c)) as [|x t] eqn:Es; [intros [= <- <-]; lia|].
  assert (Hin : In x (c_text c)) by (rewrite <- HF; apply in_or_app; right; left; reflexivity).
  destruct (x <? 128) eqn:Eb; [intros [= <- <-] ->; auto|]. destruct (decode_rune (x :: t)) as [q v] eqn:Ed. destruct (q =? rune_error) eqn:Eq; [discriminate|]. intros [= <- <-] ->.
  unfold decode_rune in Ed. rewrite Eb in Ed. unfold is_cont in Ed. change rune_error with 65533 in Ed. clear - Eb Ed Hb.
  repeat lazymatch type of Ed with
    | (65533, _) = _ => injection Ed as Ed _; lia
    | (if ?x then _ else _) = _ => destruct x eqn:?
    | (let _ := _ in _) = _ => cbv zeta in Ed
    | (match ?x with _ => _ end) = _ => destruct x
    end; injection Ed as Ed _; repeat match goal with E : context [if ?x then _ else _] |- _ => destruct x eqn:? end; lia.
Qed.

Section Sim.
Variables (T : str) (o o' : opts).
Hypothesis HT : ~ In 10 T.
Hypothesis HQ : ~ In 34 T \/ ~ In 36 T.
Hypothesis Hepp : o_epp o = false.
Hypothesis Hfac : o_factory o = true.
Hypothesis Hsame : o' = mkopts (o_epp o) (o_backtick o) (o_hex o) (o_tasks o) (o_workflow o) false (o_isLetter o).

(** the two states *)
Definition S (c c' : ctx) : Prop :=
  c_text c = T /\ c_opts c = o /\ c' = mkctx T o' (c_pos c) (c_nls c') (c_tok c) (c_bol c) (c_tsp c) (c_val c) (c_radix c) (c_names c) (c_defs c).
Definition fine (r : Z) : Prop := r <> 10 /\ (~ In 34 T -> r <> 34) /\ (~ In 36 T -> r <> 36).
Definition sim A A' (m : M A) (m' : M A') (Q : A -> A' -> Prop) : Prop :=
  forall c c', S c c' -> match m c with Ok a d => exists a' d', m' c' = Ok a' d' /\ Q a a' /\ S d d' | _ => True end.
Definition same A (m m' : M A) : Prop := sim m m' eq.
Lemma sim_bind A A' B B' (m : M A) (m' : M A') (k : A -> M B) (k' : A' -> M B') P Q :
  sim m m' P -> (forall a a', P a a' -> sim (k a) (k' a') Q) -> sim (bind m k) (bind m' k') Q.
Proof.
  intros H HK c c' HS. specialize (H c c' HS). unfold bind. destruct (m c) as [a d|e d|]; auto. destruct H as (a' & d' & E & HP & HS'). rewrite E. apply HK; auto.
Qed.
Lemma sim_eq A B B' (m m' : M A) (k : A -> M B) (k' : A -> M B') Q : same m m' -> (forall a, sim (k a) (k' a) Q) -> sim (bind m k) (bind m' k') Q.
Proof. intros H HK. eapply sim_bind; [exact H|]. intros a ? <-. apply HK. Qed.
Lemma sim_ret A A' (a : A) (a' : A') (Q : A -> A' -> Prop) : Q a a' -> sim (ret a) (ret a') Q.
Proof. intros H c c' HS. eexists _, _. split; [reflexivity|]. auto. Qed.
Lemma sim_throw A A' e m' (Q : A -> A' -> Prop) : sim (@throw A e) m' Q.
Proof. intros c c' HS. exact Logic.I. Qed.
Lemma sim_issue2 A A' e a m' (Q : A -> A' -> Prop) : sim (@issue2 A e a) m' Q.
Proof. intros c c' HS. exact Logic.I. Qed.
Lemma sim_issue A A' e m' (Q : A -> A' -> Prop) : sim (@issue A e) m' Q.
Proof. intros c c' HS. exact Logic.I. Qed.
Lemma sim_ask A (f : ctx -> A) : (forall c c', S c c' -> f c = f c') -> same (ask f) (ask f).
Proof. intros H c c' HS. eexists _, _. split; [reflexivity|]. split; [apply H, HS|exact HS]. Qed.
Lemma sim_modify f : (forall c c', S c c' -> S (f c) (f c')) -> same (modify f) (modify f).
Proof. intros H c c' HS. eexists _, _. split; [reflexivity|]. split; [reflexivity|]. apply H, HS. Qed.
Lemma sim_loop A B n (b b' : A -> M (A + B)) : (forall a, same (b a) (b' a)) -> forall a, same (loop n b a) (loop n b' a).
Proof.
  intros H. induction n as [|n IH]; intros a; [intros c c' HS; exact Logic.I|]. cbn [loop]. apply sim_eq; [apply H|]. intros [a'|x]; [apply IH|apply sim_ret; reflexivity].
Qed.
Lemma S_text c c' : S c c' -> c_text c' = T /\ c_text c = T /\ c_pos c' = c_pos c.
Proof. intros (H1 & H2 & ->). auto. Qed.
Lemma sim_while A B (b b' : A -> M (A + B)) a : (forall a, same (b a) (b' a)) -> same (while b a) (while b' a).
Proof.
  intros H c c' HS. unfold while. replace (loop_fuel c') with (loop_fuel c); [apply (sim_loop _ H a HS)|]. unfold loop_fuel. destruct (S_text HS) as (-> & -> & _). reflexivity.
Qed.
Lemma S_rune c c' p : S c c' -> rune_at p c' = rune_at p c.
Proof. intros H. destruct (S_text H) as (H1 & H2 & H3). unfold rune_at, len. now rewrite H1, H2, H3. Qed.
Lemma S_pos c c' p : S c c' -> S (with_pos p c) (with_pos p c').
Proof. intros (H1 & H2 & ->). repeat split; assumption. Qed.
Lemma S_tok c c' t v : S c c' -> S (with_tok t v c) (with_tok t v c').
Proof. intros (H1 & H2 & ->). repeat split; assumption. Qed.
Lemma S_fine c c' p r w : S c c' -> rune_at p c = inl (r, w) -> fine r.
Proof.
  intros H E. pose proof (S_text H) as (_ & H2 & _). rewrite <- H2 in HT. split; [|split; rewrite <- H2; intros X].
  - eapply (@no_byte 10); [lia|exact HT|exact E].
  - eapply (@no_byte 34); [lia|exact X|exact E].
  - eapply (@no_byte 36); [lia|exact X|exact E].
Qed.
Lemma sim_next_if B B' (k : Z * Z -> M B) (k' : Z * Z -> M B') Q : (forall r p, fine r -> sim (k (r, p)) (k' (r, p)) Q) -> sim (bind next k) (bind next k') Q.
Proof.
  intros HK c c' HS. unfold bind, next. rewrite (S_rune _ HS). destruct (S_text HS) as (_ & _ & ->). destruct (rune_at (c_pos c) c) as [[r w]|x] eqn:E; [|exact Logic.I].
  apply HK; [eapply S_fine; eauto|]. apply S_pos, HS.
Qed.
Lemma sim_peek_if B B' (k : Z * Z -> M B) (k' : Z * Z -> M B') Q : (forall r p, fine r -> sim (k (r, p)) (k' (r, p)) Q) -> sim (bind peek k) (bind peek k') Q.
Proof.
  intros HK c c' HS. unfold bind, peek. rewrite (S_rune _ HS). destruct (S_text HS) as (_ & _ & ->). destruct (rune_at (c_pos c) c) as [[r w]|x] eqn:E; [|exact Logic.I].
  apply HK; [eapply S_fine; eauto|exact HS].
Qed.
Lemma sim_next : same next next.
Proof.
  intros c c' HS. unfold next. rewrite (S_rune _ HS). destruct (S_text HS) as (_ & _ & ->). destruct (rune_at (c_pos c) c) as [[r w]|x] eqn:E; [|exact Logic.I].
  eexists _, _. split; [reflexivity|]. split; [reflexivity|]. apply S_pos, HS.
Qed.
Lemma sim_peek : same peek peek.
Proof.
  intros c c' HS. unfold peek. rewrite (S_rune _ HS). destruct (S_text HS) as (_ & _ & ->). destruct (rune_at (c_pos c) c) as [[r w]|x] eqn:E; [|exact Logic.I].
  eexists _, _. split; [reflexivity|]. split; [reflexivity|exact HS].
Qed.
Lemma sim_peekAt p : same (peekAt p) (peekAt p).
Proof.
  intros c c' HS. unfold peekAt. destruct (p <? 0); [eexists _, _; split; [reflexivity|]; split; [reflexivity|exact HS]|]. rewrite (S_rune _ HS). destruct (rune_at p c) as [[r w]|x] eqn:E; [|exact Logic.I].
  eexists _, _. split; [reflexivity|]. split; [reflexivity|exact HS].
Qed.
Lemma sim_from p : same (from p) (from p).
Proof.
  intros c c' HS. unfold from, len. destruct (S_text HS) as (-> & -> & ->). destruct (_ && _); [|exact Logic.I]. eexists _, _. split; [reflexivity|]. split; [reflexivity|exact HS].
Qed.
Lemma sim_letter x : same (isLetterM x) (isLetterM x).
Proof. apply sim_ask. intros c c' (H1 & H2 & ->). rewrite H2, Hsame. reflexivity. Qed.
Lemma sim_option f : (forall p, f (mkopts (o_epp p) (o_backtick p) (o_hex p) (o_tasks p) (o_workflow p) false (o_isLetter p)) = f p) -> same (option_on f) (option_on f).
Proof. intros Hf. apply sim_ask. intros c c' (H1 & H2 & ->). cbn [c_opts]. rewrite H2, Hsame. symmetry. apply Hf. Qed.
Lemma sim_epp B B' (k : bool -> M B) (k' : bool -> M B') Q : sim (k false) (k' false) Q -> sim (bind (option_on o_epp) k) (bind (option_on o_epp) k') Q.
Proof.
  intros H c c' HS. unfold bind, option_on, ask. assert (E : o_epp (c_opts c') = false) by (destruct HS as (_ & _ & ->); cbn [c_opts]; rewrite Hsame; exact Hepp).
  pose proof HS as (_ & H2 & _). rewrite E, H2, Hepp. apply H, HS.
Qed.
Lemma sim_factory B B' (k : bool -> M B) (k' : bool -> M B') Q : sim (k true) (k' false) Q -> sim (bind (option_on o_factory) k) (bind (option_on o_factory) k') Q.
Proof.
  intros H c c' HS. unfold bind, option_on, ask. assert (E : o_factory (c_opts c') = false) by (destruct HS as (_ & _ & ->); cbn [c_opts]; rewrite Hsame; reflexivity).
  pose proof HS as (_ & H2 & _). rewrite E, H2, Hfac. apply H, HS.
Qed.

(** the recursive calls that are made *)
Inductive pair : forall A, fn A -> fn A -> (A -> A -> Prop) -> Prop :=
| p_next : pair FNextToken FNextToken eq
| p_delim d s h b e st : h <> HDouble -> pair (FDelim d s h b e st None) (FDelim d s h b e st None) eq
| p_double d s b e st : ~ In 36 T -> fine e -> pair (FDelim d s HDouble b e st (Some [])) (FDelim d s HDouble b e st None) (fun a _ => a = Some []).
Ltac head_of t := lazymatch t with ?f _ => head_of f | _ => t end.
Ltac hook := fail.
Section Rec.
Variables rec rec' : forall A, fn A -> M A.
Hypothesis HR : forall A (f f' : fn A) Q, pair f f' Q -> sim (rec f) (rec' f') Q.
Lemma rec_eq A (f f' : fn A) : pair f f' eq -> same (rec f) (rec' f').
Proof. apply HR. Qed.
Ltac s1 :=
  cbv beta iota;
  first [ hook | lazymatch goal with
  | |- same _ _ => unfold same
  | |- sim (ret _) _ _ => apply sim_ret; try reflexivity
  | |- sim (throw _) _ _ => apply sim_throw
  | |- sim (issue2 _ _) _ _ => apply sim_issue2
  | |- sim (issue _) _ _ => apply sim_issue
  | |- sim peek _ _ => apply sim_peek
  | |- sim next _ _ => apply sim_next
  | |- sim (peekAt _) _ _ => apply sim_peekAt
  | |- sim (from _) _ _ => apply sim_from
  | |- sim (isLetterM _) _ _ => apply sim_letter
  | |- sim (bind next _) _ _ => apply sim_next_if; intros ? ? ?
  | |- sim (bind peek _) _ _ => apply sim_peek_if; intros ? ? ?
  | |- sim (bind (option_on o_epp) _) _ _ => apply sim_epp
  | |- sim (bind (option_on o_factory) _) _ _ => apply sim_factory
  | |- sim (option_on _) _ _ => apply sim_option; reflexivity
  | |- sim (while _ _) _ _ => apply sim_while; intros ?
  | |- sim (rec _) _ _ => apply HR
  | |- sim (let _ := _ in _) _ _ => cbv zeta
  | |- sim (bind _ _) _ _ => apply sim_eq; [|intros ?]
  | |- sim (ask _) _ _ => apply sim_ask; let H := fresh in intros ? ? H; destruct H as (? & ? & ->); cbn [c_text c_pos c_tok c_bol c_tsp c_val c_radix]; congruence
  | |- sim (modify _) _ _ => apply sim_modify; let H := fresh in intros ? ? H; destruct H as (? & ? & ->); repeat split; cbn; assumption
  | |- sim (if ?x then _ else _) _ _ => let E := fresh "E" in destruct x eqn:E; try solve [exfalso; unfold fine in *; lia]
  | |- sim (match ?x with _ => _ end) _ _ => destruct x
  | |- sim ?m _ _ => let h := head_of m in progress unfold h
  end].
Ltac s := repeat s1.
Lemma skip_sim b : sim (skipWhite b) (skipWhite b) (fun a a' => a = a' /\ fine (fst a)).
Proof.
  intros c c' HS. unfold skipWhite, while. replace (loop_fuel c') with (loop_fuel c); [|unfold loop_fuel; destruct (S_text HS) as (-> & -> & _); reflexivity].
  generalize (loop_fuel c). intros n. revert c c' HS. generalize (0, 0). induction n as [|n IH]; intros st c c' HS; [exact Logic.I|]. cbn [loop].
  assert (K : sim (skipWhite_step b st) (skipWhite_step b st) (fun x x' => x = x' /\ match x with inl _ => True | inr a => fine (fst a) end)).
  { destruct st as [cs csp]. unfold skipWhite_step. s; auto. }
  specialize (K c c' HS). unfold bind. destruct (skipWhite_step b st c) as [x d|e d|]; auto. destruct K as (x' & d' & -> & (<- & HF) & HS').
  destruct x as [st'|a]; [apply IH, HS'|]. eexists _, _. split; [reflexivity|]. auto.
Qed.
Lemma skip_same b : same (skipWhite b) (skipWhite b).
Proof. intros c c' HS. pose proof (skip_sim b HS) as H. destruct (skipWhite b c); auto. destruct H as (a' & d' & H1 & (H2 & _) & H3). eauto. Qed.
Ltac hook ::= lazymatch goal with
  | |- sim (bind (skipWhite _) _) _ _ => eapply sim_bind; [apply skip_sim|let H := fresh in intros [? ?] ? [<- H]; cbn [fst] in H]
  | |- sim (skipWhite _) _ _ => apply skip_same
  end.
Lemma delim_sim d s h b e st : h <> HDouble -> same (delim_body rec d s h b e st None) (delim_body rec' d s h b e st None).
Proof.
  intros Hh. unfold delim_body. s. all: try (apply p_delim; exact Hh). congruence.
Qed.
Lemma double_sim d s b e st : ~ In 36 T -> fine e -> sim (delim_body rec d s HDouble b e st (Some [])) (delim_body rec' d s HDouble b e st None) (fun a _ => a = Some []).
Proof.
  intros Hd He. unfold delim_body. s. all: try (apply p_double; assumption); try reflexivity.
  all: exfalso; repeat match goal with X : fine _ |- _ => destruct X as (_ & _ & X); specialize (X Hd) end; lia.
Qed.
Lemma word_sim st t : same (consumeQualifiedName st t) (consumeQualifiedName st t).
Proof. unfold consumeQualifiedName, qualifiedName_step. s. Qed.
Lemma number_sim st : same (lex_number st) (lex_number st).
Proof. s. Qed.
Lemma zero_sim st : same (lex_zero st) (lex_zero st).
Proof. s. Qed.
Ltac hook ::= lazymatch goal with
  | |- sim (bind (skipWhite _) _) _ _ => eapply sim_bind; [apply skip_sim|let H := fresh in intros [? ?] ? [<- H]; cbn [fst] in H]
  | |- sim (skipWhite _) _ _ => apply skip_same
  | |- sim (consumeQualifiedName _ _) _ _ => apply word_sim
  | |- sim (rec (FDelim _ _ HSingle _ _ _ _)) _ _ => apply HR, p_delim; discriminate
  | |- sim (rec (FDelim _ _ HRegexp _ _ _ _)) _ _ => apply HR, p_delim; discriminate
  end.
(** a heredoc never ends on a single line *)
Definition never A (m : M A) : Prop := forall c c', S c c' -> match m c with Ok _ _ => False | _ => True end.
Lemma never_sim A A' (m : M A) m' (Q : A -> A' -> Prop) : never m -> sim m m' Q.
Proof. intros H c c' HS. specialize (H c c' HS). destruct (m c); [destruct H| |]; exact Logic.I. Qed.
Lemma never_after A A' B (m : M A) (m' : M A') (k : A -> M B) Q : sim m m' Q -> (forall a a', Q a a' -> never (k a)) -> never (bind m k).
Proof. intros H HK c c' HS. specialize (H c c' HS). unfold bind. destruct (m c) as [a d|e d|]; auto. destruct H as (a' & d' & _ & HA & HS'). exact (HK a a' HA _ _ HS'). Qed.
Lemma never_first A B (m : M A) (k : A -> M B) : never m -> never (bind m k).
Proof. intros H c c' HS. specialize (H c c' HS). unfold bind. destruct (m c); [destruct H| |]; exact Logic.I. Qed.
Lemma start_never hs st : fine (fst st) -> never (while (startOfText_step hs) st).
Proof.
  intros Hf c c' HS. unfold while. generalize (loop_fuel c). intros n. revert st Hf c c' HS. induction n as [|n IH]; intros st Hf c c' HS; [exact Logic.I|]. cbn [loop].
  assert (K : sim (startOfText_step hs st) (startOfText_step hs st) (fun x x' => match x with inl a => fine (fst a) | inr _ => False end)).
  { destruct st as [r sz]. cbn [fst] in Hf. unfold startOfText_step. s. all: cbn [fst]; assumption. }
  specialize (K c c' HS). unfold bind. destruct (startOfText_step hs st c) as [x d|e d|]; auto. destruct K as (x' & d' & _ & HK & HS'). destruct x as [st'|a]; [|destruct HK]. exact (IH st' HK _ _ HS').
Qed.
Lemma flags_sim st f : same (extract_flags st f) (extract_flags st f).
Proof. induction f as [|x f IH]; cbn [extract_flags]; s; exact IH. Qed.
Ltac hook ::= lazymatch goal with
  | |- sim (bind (skipWhite _) _) _ _ => eapply sim_bind; [apply skip_sim|let H := fresh in intros [? ?] ? [<- H]; cbn [fst] in H]
  | |- sim (skipWhite _) _ _ => apply skip_same
  | |- sim (extract_flags _ _) _ _ => apply flags_sim
  | |- sim (consumeQualifiedName _ _) _ _ => apply word_sim
  | |- sim (rec (FDelim _ _ HSingle _ _ _ _)) _ _ => apply HR, p_delim; discriminate
  | |- sim (rec (FDelim _ _ HRegexp _ _ _ _)) _ _ => apply HR, p_delim; discriminate
  end.
Lemma tag_sim st hs d : same (while (tagEnd_step st hs) d) (while (tagEnd_step st hs) d).
Proof. apply sim_while. intros a. unfold tagEnd_step. s. Qed.
Lemma heredoc_never : never (consumeHeredocString rec).
Proof.
  unfold consumeHeredocString. eapply never_after; [s1; s1; s1|]. intros p ? <-. cbv zeta. eapply never_after; [apply tag_sim|]. intros [d e] ? <-. destruct (h_tag d) as [|x y].
  - eapply never_after; [s|]. intros ? ? _ c c' _. exact Logic.I.
  - intros c c' HS. unfold bind at 1, peek. destruct (rune_at (c_pos c) c) as [[r w]|z] eqn:E; [|exact Logic.I]. cbv iota beta.
    assert (Hf : fine r) by (eapply S_fine; eauto). revert c c' HS E. intros c c' HS _. revert c c' HS.
    match goal with |- forall c c', S c c' -> match (?m c) with _ => _ end => change (never m) end. apply never_first. apply start_never. exact Hf.
Qed.
Ltac hook ::= lazymatch goal with
  | |- sim (bind (skipWhite _) _) _ _ => eapply sim_bind; [apply skip_sim|let H := fresh in intros [? ?] ? [<- H]; cbn [fst] in H]
  | |- sim (skipWhite _) _ _ => apply skip_same
  | |- sim (consumeHeredocString _) _ _ => apply never_sim, heredoc_never
  | |- sim (consumeQualifiedName _ _) _ _ => apply word_sim
  | |- sim (lex_number _) _ _ => apply number_sim
  | |- sim (lex_zero _) _ _ => apply zero_sim
  | |- sim (rec (FDelim _ _ HSingle _ _ _ _)) _ _ => apply HR, p_delim; discriminate
  | |- sim (rec (FDelim _ _ HRegexp _ _ _ _)) _ _ => apply HR, p_delim; discriminate
  end.
Lemma double_quoted_sim : ~ In 36 T -> same (consumeDoubleQuotedString rec) (consumeDoubleQuotedString rec').
Proof.
  intros H36. unfold consumeDoubleQuotedString. s1. s1. s1; [s|]. eapply sim_bind with (P := fun a _ => a = Some []).
  - unfold consumeDelimitedString. s1. s1. apply p_double; assumption.
  - intros sg ? ->. cbn [negb]. intros c c' HS. unfold value_string, bind, ask, getPos. cbv iota beta. destruct (c_val c); try exact Logic.I. cbv iota beta zeta. eexists _, _. split; [reflexivity|]. split; [reflexivity|exact HS].
Qed.
Lemma token_sim a b c : fine c -> same (lex_token rec a b c) (lex_token rec' a b c).
Proof.
  intros Hc. unfold lex_token. s1. repeat lazymatch goal with |- sim (if ?x then _ else _) _ _ => let E := fresh "E" in destruct x eqn:E; [lazymatch type of E with (_ =? 34) = _ => idtac | _ => solve [s] end|] end.
  - destruct HQ as [H34|H36]; [exfalso; destruct Hc as (_ & X & _); specialize (X H34); lia|]. apply double_quoted_sim, H36.
  - s.
Qed.
Lemma next_sim : same (nextToken_body rec) (nextToken_body rec').
Proof.
  unfold nextToken_body. s1. s1; [s|]. eapply sim_bind; [apply skip_sim|]. intros [r p] ? [<- Hf]. cbn [fst] in Hf. apply sim_eq; [s|]. intros _. apply token_sim, Hf.
Qed.
End Rec.
Lemma run_sim n : forall A (f f' : fn A) Q, pair f f' Q -> sim (run n f) (run n f') Q.
Proof.
  induction n as [|n IH]; intros A f f' Q HP; [intros c c' HS; exact Logic.I|]. cbn [run]. destruct HP; cbn [body].
  - apply next_sim, IH.
  - apply delim_sim; [apply IH|assumption].
  - apply double_sim; [apply IH|assumption|assumption].
Qed.
Theorem next_same n : same (run n FNextToken) (run n FNextToken).
Proof. apply run_sim, p_next. Qed.
End Sim.
