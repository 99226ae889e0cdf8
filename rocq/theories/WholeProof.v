(** * WholeProof: a successful Parse has read the whole source (C53) *)
From Verif Require Import Base Float Tokens Ast Ctx Lexer Parser Api Utf8Facts.
From Coq Require Import Lia ZifyBool.

Section Whole.
Variable T : str.
Variable o : opts.
Hypothesis no_nul : ~ In 0 T.
(** not both EPP and workflow mode *)
Hypothesis mode : o_epp o = true -> o_workflow o = false.
Notation L := (zlen T).

Definition same (c : ctx) : Prop := c_text c = T /\ c_opts c = o.
(** at the end token the lexer is at the end *)
Definition Inv (c : ctx) : Prop := same c /\ (c_tok c = TEnd -> L <= c_pos c /\ (o_epp o = false -> L <= c_tsp c)).
Definition tx A (m : M A) : Prop := forall c, same c -> match m c with Ok _ d => same d | _ => True end.
Definition mks A (m : M A) : Prop := forall c, same c -> match m c with Ok _ d => Inv d | _ => True end.
Definition kp A (m : M A) : Prop := forall c, Inv c -> match m c with Ok _ d => Inv d | _ => True end.
Definition fl A (m : M A) : Prop := forall c, match m c with Ok _ _ => False | _ => True end.
Lemma fl_kp A (m : M A) : fl m -> kp m. Proof. intros H c _. specialize (H c). destruct (m c); tauto. Qed.
Lemma fl_mks A (m : M A) : fl m -> mks m. Proof. intros H c _. specialize (H c). destruct (m c); tauto. Qed.
Lemma fl_tx A (m : M A) : fl m -> tx m. Proof. intros H c _. specialize (H c). destruct (m c); tauto. Qed.
Lemma mks_kp A (m : M A) : mks m -> kp m. Proof. intros H c [S _]. exact (H c S). Qed.
Lemma mks_tx A (m : M A) : mks m -> tx m. Proof. intros H c S. specialize (H c S). destruct (m c); auto. apply H. Qed.
Lemma fl_throw A e : fl (@throw A e). Proof. intros c. exact Logic.I. Qed.
Lemma fl_issue A e a : fl (@issue2 A e a). Proof. intros c. exact Logic.I. Qed.
Lemma fl_bind A B (m : M A) (k : A -> M B) : (forall a, fl (k a)) -> fl (bind m k).
Proof. intros H c. unfold bind. destruct (m c) as [a d| |]; auto. apply H. Qed.
(** ** tx *)
Lemma tx_bind A B (m : M A) (k : A -> M B) : tx m -> (forall a, tx (k a)) -> tx (bind m k).
Proof. intros Hm Hk c S. specialize (Hm c S). unfold bind. destruct (m c) as [a d| |]; auto. now apply Hk. Qed.
Lemma tx_ret A (a : A) : tx (ret a). Proof. intros c S. exact S. Qed.
Lemma tx_ask A (f : ctx -> A) : tx (ask f). Proof. intros c S. exact S. Qed.
Lemma tx_peek : tx peek. Proof. intros c S. unfold peek. destruct (rune_at _ _); auto. Qed.
Lemma tx_peekAt p : tx (peekAt p). Proof. intros c S. unfold peekAt. destruct (p <? 0); auto. destruct (rune_at _ _); auto. Qed.
Lemma tx_next : tx next. Proof. intros c S. unfold next. destruct (rune_at _ _) as [[? ?]|]; auto. Qed.
Lemma tx_from p : tx (from p). Proof. intros c S. unfold from. destruct (_ && _); auto. Qed.
Lemma tx_pop : tx popName. Proof. intros c S. unfold popName. destruct (c_names c); auto. Qed.
Lemma tx_modify f : (forall c, c_text (f c) = c_text c /\ c_opts (f c) = c_opts c) -> tx (modify f).
Proof. intros H c [S1 S2]. destruct (H c) as [H1 H2]. cbn. split; congruence. Qed.
Lemma tx_loop A B n (b : A -> M (A + B)) : (forall a, tx (b a)) -> forall a, tx (loop n b a).
Proof. intros H. induction n as [|n IH]; intros a; [intros c S; exact Logic.I|]. cbn [loop]. apply tx_bind; [apply H|]. intros [a'|x]; [apply IH|apply tx_ret]. Qed.
Lemma tx_while A B (b : A -> M (A + B)) a : (forall a, tx (b a)) -> tx (while b a).
Proof. intros H c S. unfold while. now apply tx_loop. Qed.
Ltac head_of t := lazymatch t with ?f _ => head_of f | _ => t end.
Ltac t_hook := fail.
Ltac t1 :=
  first [t_hook|lazymatch goal with
  | |- tx (bind _ _) => apply tx_bind; [|intros ?]
  | |- tx (ret _) => apply tx_ret
  | |- tx (ask _) => apply tx_ask
  | |- tx (throw _) => apply fl_tx, fl_throw
  | |- tx (issue2 _ _) => apply fl_tx, fl_issue
  | |- tx peek => apply tx_peek
  | |- tx (peekAt _) => apply tx_peekAt
  | |- tx next => apply tx_next
  | |- tx (from _) => apply tx_from
  | |- tx popName => apply tx_pop
  | |- tx (modify _) => apply tx_modify; intros ?; try (destruct (0 <=? _)); split; reflexivity
  | |- tx (while _ _) => apply tx_while; intros ?
  | |- tx (let _ := _ in _) => cbv zeta
  | |- tx (match ?x with _ => _ end) => destruct x
  | |- tx ?m => let h := head_of m in progress unfold h
  end].
Ltac t := repeat t1.
Lemma tx_flags s f : tx (extract_flags s f).
Proof. induction f as [|x f IH]; cbn [extract_flags]; t; exact IH. Qed.
Lemma tx_commas es : tx (check_commas es).
Proof. induction es as [|e es IH]; cbn [check_commas]; [t|]. destruct e; try exact IH. t. Qed.
Lemma tx_choice alts d c z : tx d -> tx (op_choice alts d c z).
Proof. intros H. induction alts as [|[x y] l IH]; cbn [op_choice]; [exact H|]. t. exact IH. Qed.
Ltac t_hook ::= lazymatch goal with
  | |- tx (extract_flags _ _) => apply tx_flags
  | |- tx (check_commas _) => apply tx_commas
  | |- tx (op_choice _ _ _ _) => apply tx_choice
  | H : forall A (f : fn A), tx (?rec A f) |- tx (?rec _ _) => apply H
  end.
Section Tx.
Variable rec : forall A, fn A -> M A.
Hypothesis H : forall A (f : fn A), tx (rec f).
Lemma tx_body A (f : fn A) : tx (body rec f).
Proof. destruct f; cbn [body]. all: t. Qed.
Lemma tx_top single : tx (parseTop rec single).
Proof. t. Qed.
End Tx.
Lemma tx_run n A (f : fn A) : tx (run n f).
Proof. revert A f. induction n as [|n IH]; intros A f; [intros c S; exact Logic.I|]. cbn [run]. now apply tx_body. Qed.

(** ** Lexers that set a token other than the end *)
Definition tk (c : ctx) : Prop := same c /\ c_tok c <> TEnd.
Definition ne A (m : M A) : Prop := forall c, same c -> match m c with Ok _ d => tk d | _ => True end.
Definition nk A (m : M A) : Prop := forall c, tk c -> match m c with Ok _ d => tk d | _ => True end.
Lemma tk_Inv c : tk c -> Inv c. Proof. intros [S N]. split; [exact S|]. intros E. contradiction. Qed.
Lemma ne_mks A (m : M A) : ne m -> mks m.
Proof. intros H c S. specialize (H c S). destruct (m c); auto. now apply tk_Inv. Qed.
Lemma ne_nk A (m : M A) : ne m -> nk m. Proof. intros H c [S _]. exact (H c S). Qed.
Lemma ne_tx A (m : M A) : ne m -> tx m. Proof. intros H c S. specialize (H c S). destruct (m c); auto. apply H. Qed.
Lemma fl_ne A (m : M A) : fl m -> ne m. Proof. intros H c _. specialize (H c). destruct (m c); tauto. Qed.
Lemma fl_nk A (m : M A) : fl m -> nk m. Proof. intros H c _. specialize (H c). destruct (m c); tauto. Qed.
Lemma ne_l A B (m : M A) (k : A -> M B) : tx m -> (forall a, ne (k a)) -> ne (bind m k).
Proof. intros Hm Hk c S. specialize (Hm c S). unfold bind. destruct (m c) as [a d| |]; auto. now apply Hk. Qed.
Lemma ne_r A B (m : M A) (k : A -> M B) : ne m -> (forall a, nk (k a)) -> ne (bind m k).
Proof. intros Hm Hk c S. specialize (Hm c S). unfold bind. destruct (m c) as [a d| |]; auto. now apply Hk. Qed.
Lemma nk_bind A B (m : M A) (k : A -> M B) : nk m -> (forall a, nk (k a)) -> nk (bind m k).
Proof. intros Hm Hk c S. specialize (Hm c S). unfold bind. destruct (m c) as [a d| |]; auto. now apply Hk. Qed.
Lemma mks_l A B (m : M A) (k : A -> M B) : tx m -> (forall a, mks (k a)) -> mks (bind m k).
Proof. intros Hm Hk c S. specialize (Hm c S). unfold bind. destruct (m c) as [a d| |]; auto. now apply Hk. Qed.
Lemma mks_n A B (m : M A) (k : A -> M B) : ne m -> (forall a, nk (k a)) -> mks (bind m k).
Proof. intros H1 H2. apply ne_mks. now apply ne_r. Qed.
Lemma ne_set t v : t <> TEnd -> ne (settokenValue t v).
Proof. intros H c [S1 S2]. cbn. split; [split; assumption|exact H]. Qed.
Lemma ne_token t : t <> TEnd -> ne (setToken t). Proof. apply ne_set. Qed.
Lemma nk_modify f : (forall c, c_text (f c) = c_text c /\ c_opts (f c) = c_opts c /\ c_tok (f c) = c_tok c) -> nk (modify f).
Proof. intros H c [[S1 S2] N]. destruct (H c) as (H1 & H2 & H3). cbn. split; [split; congruence|]. now rewrite H3. Qed.
Lemma nk_ret A (a : A) : nk (ret a). Proof. intros c S. exact S. Qed.
Lemma nk_ask A (f : ctx -> A) : nk (ask f). Proof. intros c S. exact S. Qed.
Lemma nk_peek : nk peek. Proof. intros c S. unfold peek. destruct (rune_at _ _); auto. Qed.
Lemma nk_next : nk next. Proof. intros c S. unfold next. destruct (rune_at _ _) as [[? ?]|]; auto. Qed.
Lemma nk_from p : nk (from p). Proof. intros c S. unfold from. destruct (_ && _); auto. Qed.
Lemma ne_choice alts d c z : ne d -> (forall x t, In (x, t) alts -> t <> TEnd) -> ne (op_choice alts d c z).
Proof.
  intros H HA. induction alts as [|[x y] l IH]; cbn [op_choice]; [exact H|]. destruct (c =? x).
  - apply ne_l; [t|]. intros _. apply ne_token. apply (HA x y). now left.
  - apply IH. intros x' t' Hi. apply (HA x' t'). now right.
Qed.
Lemma kw_not_end w k : kw_lookup w = Some k -> k <> TEnd.
Proof.
  assert (forall l, (forall p, In p l -> snd p <> TEnd) -> kw_find w l = Some k -> k <> TEnd) as G.
  { induction l as [|[a b] l IH]; [discriminate|]. intros HA. cbn [kw_find]. destruct (str_eqb w (lit a)).
    - intros [= <-]. apply (HA (a, b)). now left.
    - apply IH. intros p Hp. apply HA. now right. }
  apply G. intros p Hp. repeat (destruct Hp as [<-|Hp]; [cbn; discriminate|]). destruct Hp.
Qed.
(** failing *)
Ltac f1 :=
  lazymatch goal with
  | |- fl (throw _) => apply fl_throw
  | |- fl (issue2 _ _) => apply fl_issue
  | |- fl (bind _ _) => apply fl_bind; intros ?
  | |- fl (let _ := _ in _) => cbv zeta
  | |- fl (match ?x with _ => _ end) => destruct x
  | |- fl (ret _) => fail
  | |- fl ?m => let h := head_of m in progress unfold h
  end.
Ltac f := repeat f1.
Ltac n_hook := fail.
Ltac n1 :=
  first [n_hook|lazymatch goal with
  | |- nk (bind _ _) => apply nk_bind; [|intros ?]
  | |- nk (ret _) => apply nk_ret
  | |- nk (ask _) => apply nk_ask
  | |- nk (throw _) => apply fl_nk, fl_throw
  | |- nk (issue2 _ _) => apply fl_nk, fl_issue
  | |- nk peek => apply nk_peek
  | |- nk next => apply nk_next
  | |- nk (from _) => apply nk_from
  | |- nk (setToken _) => apply ne_nk
  | |- nk (settokenValue _ _) => apply ne_nk
  | |- nk (consumeQualifiedName _ _) => apply ne_nk
  | |- nk (modify (fun c => with_tok TRegexp _ c)) => apply ne_nk; intros ? [? ?]; cbn; split; [split; assumption|discriminate]
  | |- nk (modify _) => apply nk_modify; intros ?; repeat split; reflexivity
  | |- nk (let _ := _ in _) => cbv zeta
  | |- nk (match ?x with _ => _ end) => destruct x
  | |- nk ?m => let h := head_of m in progress unfold h
  | |- ne (bind (setToken _) _) => apply ne_r; [|intros ?]
  | |- ne (bind (settokenValue _ _) _) => apply ne_r; [|intros ?]
  | |- ne (bind (consumeDelimitedString _ _ _ _ _) _) => apply ne_r; [|intros ?]
  | |- ne (bind (consumeRegexp _) _) => apply ne_r; [|intros ?]
  | |- ne (bind _ _) => apply ne_l; [solve [t]|intros ?]
  | |- ne (setToken (if ?b then _ else _)) => destruct b
  | |- ne (settokenValue (if ?b then _ else _) _) => destruct b
  | |- ne (setToken _) => apply ne_token; first [assumption|discriminate]
  | |- ne (settokenValue _ _) => apply ne_set; first [assumption|discriminate]
  | |- ne (throw _) => apply fl_ne, fl_throw
  | |- ne (issue2 _ _) => apply fl_ne, fl_issue
  | |- ne (op_choice _ _ _ _) => apply ne_choice; [|intros ? ? Hi; repeat (destruct Hi as [[= <- <-]|Hi]; [discriminate|]); destruct Hi]
  | |- ne (let _ := _ in _) => cbv zeta
  | |- ne (match ?x with _ => _ end) => destruct x
  | |- ne (ret _) => fail
  | |- ne ?m => let h := head_of m in progress unfold h
  end].
Ltac n := repeat n1.
Lemma ne_name start token : token <> TEnd -> ne (consumeQualifiedName start token).
Proof.
  intros H. unfold consumeQualifiedName. apply ne_l; [t|]. intros hd. apply ne_l; [t|]. intros w.
  destruct (tok_eqb token TIdentifier); [|n]. destruct hd; [n|]. destruct (kw_lookup w) as [k|] eqn:E; [|n]. apply kw_not_end in E. destruct k; n.
Qed.
Ltac n_hook ::= lazymatch goal with
  | |- ne (consumeQualifiedName _ _) => apply ne_name; first [assumption|discriminate]
  | H : forall a b c d e f g, ne (?rec _ (FDelim a b c d e f g)) |- ne (?rec _ (FDelim _ _ _ _ _ _ _)) => apply H
  end.
Section Ne.
Variable rec : forall A, fn A -> M A.
Hypothesis HT : forall A (f : fn A), tx (rec f).
Hypothesis HD : forall a b c d e f g, ne (rec (FDelim a b c d e f g)).
Lemma ne_delim a b c d e f g : ne (delim_body rec a b c d e f g).
Proof. n. Qed.
Lemma ne_double : ne (consumeDoubleQuotedString rec).
Proof. n. Qed.
Lemma ne_single : ne (consumeSingleQuotedString rec).
Proof. n. Qed.
Lemma ne_heredoc : ne (consumeHeredocString rec).
Proof. n. Qed.
End Ne.

(** ** White space, and the end token *)
Lemma end_of_text p c w : same c -> rune_at p c = inl (0, w) -> L <= p.
Proof.
  intros [S _]. unfold rune_at, len. rewrite S. destruct (L <=? p) eqn:El; [lia|]. destruct (p <? 0) eqn:Ep; [discriminate|].
  pose proof (firstn_skipn (Z.to_nat p) T) as HF. destruct (skipn (Z.to_nat p) T) as [|b t] eqn:Es.
  - intros _. assert (zlen (skipn (Z.to_nat p) T) = 0) as E by now rewrite Es. unfold zlen in *. rewrite skipn_length in E. lia.
  - assert (Hin : In b T) by (rewrite <- HF; apply in_or_app; right; left; reflexivity).
    destruct (b <? 128) eqn:Eb; [intros [= -> <-]; contradiction|]. destruct (decode_rune (b :: t)) as [q v] eqn:Ed. destruct (q =? rune_error) eqn:Eq; [discriminate|]. intros [= -> <-].
    unfold decode_rune in Ed. rewrite Eb in Ed. unfold is_cont in Ed. change rune_error with 65533 in Ed. clear - Eb Ed.
    repeat lazymatch type of Ed with
      | (65533, _) = _ => discriminate Ed
      | (if ?x then _ else _) = _ => destruct x eqn:?
      | (let _ := _ in _) = _ => cbv zeta in Ed
      | (match ?x with _ => _ end) = _ => destruct x
      end; injection Ed as Ed _; repeat match goal with E : context [if ?x then _ else _] |- _ => destruct x eqn:? end; lia.
Qed.
Definition from_to A (P : ctx -> Prop) (m : M A) (Q : A -> ctx -> Prop) : Prop := forall c, P c -> match m c with Ok a d => Q a d | _ => True end.
Lemma ft_bind A B P (m : M A) (k : A -> M B) R Q : from_to P m R -> (forall a, from_to (R a) (k a) Q) -> from_to P (bind m k) Q.
Proof. intros Hm Hk c H. specialize (Hm c H). unfold bind. destruct (m c) as [a d| |]; auto. now apply Hk. Qed.
Lemma ft_fl A P (m : M A) Q : fl m -> from_to P m Q.
Proof. intros H c _. specialize (H c). destruct (m c); tauto. Qed.
Lemma ft_ret A (P : ctx -> Prop) (a : A) (Q : A -> ctx -> Prop) : (forall c, P c -> Q a c) -> from_to P (ret a) Q.
Proof. intros H c. apply H. Qed.
Lemma ft_ask A (P : ctx -> Prop) (g : ctx -> A) (Q : A -> ctx -> Prop) : (forall c, P c -> Q (g c) c) -> from_to P (ask g) Q.
Proof. intros H c. apply H. Qed.
Lemma ft_modify (P : ctx -> Prop) g (Q : unit -> ctx -> Prop) : (forall c, P c -> Q tt (g c)) -> from_to P (modify g) Q.
Proof. intros H c. apply H. Qed.
Lemma ft_while A B (P : ctx -> Prop) (b : A -> M (A + B)) (Q : B -> ctx -> Prop) a :
  (forall a, from_to P (b a) (fun x d => match x with inl _ => P d | inr y => Q y d end)) -> from_to P (while b a) Q.
Proof.
  intros H c HP. unfold while. generalize (loop_fuel c) as n. intros n. revert a c HP. induction n as [|n IH]; intros a c HP; [exact Logic.I|].
  cbn [loop]. specialize (H a c HP). unfold bind. destruct (b a c) as [[a'|x] d| |]; auto. apply IH, H.
Qed.
(** where the lexer was when the white space began *)
Definition at_ (k : tok) (p0 tsp : Z) (c : ctx) : Prop := same c /\ c_tok c = k /\ c_tsp c = tsp /\ (L <= p0 -> c_pos c = p0).
Lemma white_step k p0 tsp st b : from_to (at_ k p0 tsp) (skipWhite_step b st)
  (fun x d => match x with inl _ => at_ k p0 tsp d
   | inr (r, s) => same d /\ c_tok d = k /\ c_tsp d = tsp /\ (r = 0 -> L <= s /\ L <= c_pos d) /\ (L <= p0 -> L <= s) end).
Proof.
  destruct st as [cs csp]. unfold skipWhite_step.
  apply ft_bind with (R := fun x d => same d /\ c_tok d = k /\ c_tsp d = tsp /\ (fst x = 0 -> L <= snd x /\ L <= c_pos d) /\ (L <= p0 -> fst x = 0 /\ L <= snd x)).
  { intros c (S & E1 & E2 & E3). unfold next. destruct (rune_at (c_pos c) c) as [[r w]|] eqn:E; [|exact Logic.I]. cbn [fst snd].
    assert (r = 0 -> L <= c_pos c /\ L <= c_pos c + w) as Hz.
    { intros ->. pose proof (end_of_text S E) as HL. split; [exact HL|]. unfold rune_at, len in E. rewrite (proj1 S) in E. replace (L <=? c_pos c) with true in E by lia. injection E as <-. lia. }
    split; [exact S|]. cbn [c_tok c_tsp c_pos with_pos]. split; [exact E1|]. split; [exact E2|]. split; [exact Hz|].
    intros HL. rewrite (E3 HL) in *. unfold rune_at, len in E. rewrite (proj1 S) in E. replace (L <=? p0) with true in E by lia. injection E as <- <-. split; [reflexivity|exact HL]. }
  intros [r s]. cbn [fst snd].
  destruct (r =? 0) eqn:Er.
  { destruct (cs =? _); [apply ft_fl; f|]. apply ft_ret. intuition. }
  assert (r <> 0) as Nr by lia.
  assert (W : forall A (m : M (A + (Z * Z))), from_to (fun d => same d /\ c_tok d = k /\ c_tsp d = tsp /\ ~ L <= p0) m
      (fun x d => match x with inl _ => same d /\ c_tok d = k /\ c_tsp d = tsp | inr (r', s') => same d /\ c_tok d = k /\ c_tsp d = tsp /\ r' <> 0 end)
    -> from_to (fun d => same d /\ c_tok d = k /\ c_tsp d = tsp /\ (r = 0 -> L <= s /\ L <= c_pos d) /\ (L <= p0 -> r = 0 /\ L <= s)) m
      (fun x d => match x with inl _ => at_ k p0 tsp d
   | inr (r, s) => same d /\ c_tok d = k /\ c_tsp d = tsp /\ (r = 0 -> L <= s /\ L <= c_pos d) /\ (L <= p0 -> L <= s) end)).
  { intros A m Hm c (S & E1 & E2 & E3 & E4). assert (~ L <= p0) as Hn by (intros HL; destruct (E4 HL); contradiction).
    specialize (Hm c (conj S (conj E1 (conj E2 Hn)))). destruct (m c) as [[x|[r' s']] d| |]; auto; [unfold at_; intuition lia|intuition lia]. }
  apply W. clear W.
  assert (Wp : from_to (fun d => same d /\ c_tok d = k /\ c_tsp d = tsp /\ ~ L <= p0) peek (fun _ d => same d /\ c_tok d = k /\ c_tsp d = tsp /\ ~ L <= p0)).
  { intros c H. unfold peek. destruct (rune_at _ _); auto. }
  assert (Wa : forall z, from_to (fun d => same d /\ c_tok d = k /\ c_tsp d = tsp /\ ~ L <= p0) (advance z) (fun _ d => same d /\ c_tok d = k /\ c_tsp d = tsp /\ ~ L <= p0)).
  { intros z c H. exact H. }
  repeat lazymatch goal with
  | |- from_to _ (ret (inl _)) _ => apply ft_ret; intuition
  | |- from_to _ (ret (inr _)) _ => apply ft_ret; intuition
  | |- from_to _ (bind peek _) _ => eapply ft_bind; [exact Wp|intros [? ?]]
  | |- from_to _ (bind (advance _) _) _ => eapply ft_bind; [apply Wa|intros ?]
  | |- from_to _ (bind (setPos _) _) _ => eapply ft_bind; [apply ft_modify with (Q := fun _ d => same d /\ c_tok d = k /\ c_tsp d = tsp /\ ~ L <= p0); intros ? HH; exact HH|intros ?]
  | |- from_to _ (bind (modify _) _) _ => eapply ft_bind; [apply ft_modify with (Q := fun _ d => same d /\ c_tok d = k /\ c_tsp d = tsp /\ ~ L <= p0); intros ? HH; try destruct (0 <=? _); exact HH|intros ?]
  | |- from_to _ (if ?b then _ else _) _ => destruct b
  end.
Qed.
Lemma white b k p0 tsp : from_to (at_ k p0 tsp) (skipWhite b)
  (fun x d => same d /\ c_tok d = k /\ c_tsp d = tsp /\ (fst x = 0 -> L <= snd x /\ L <= c_pos d) /\ (L <= p0 -> L <= snd x)).
Proof.
  unfold skipWhite. apply ft_while. intros a c H. generalize (white_step a b H). destruct (skipWhite_step b a c) as [[x|[r s]] d| |]; auto.
Qed.
(** EPP text *)
Lemma mks_r A B (m : M A) (k : A -> M B) : mks m -> (forall a, kp (k a)) -> mks (bind m k).
Proof. intros Hm Hk c S. specialize (Hm c S). unfold bind. destruct (m c) as [a d| |]; auto. now apply Hk. Qed.
Lemma epp_step_end (He : o_epp o = true) st : from_to same (epp_step st) (fun x d => match x with inl _ => same d | inr _ => Inv d end).
Proof.
  destruct st as [buf lw]. unfold epp_step.
  apply ft_bind with (R := fun x d => same d /\ (fst x = 0 -> L <= c_pos d)).
  { intros c S. unfold next. destruct (rune_at (c_pos c) c) as [[r w]|] eqn:E; [|exact Logic.I]. cbn [fst snd]. split; [exact S|]. intros ->. cbn [c_pos with_pos].
    pose proof (end_of_text S E) as HL. unfold rune_at, len in E. rewrite (proj1 S) in E. replace (L <=? c_pos c) with true in E by lia. injection E as <-. lia. }
  intros [ec start]. cbn [fst].
  assert (P : forall m : M ((str * Z) + bool), from_to same m (fun x d => match x with inl _ => same d | inr _ => tk d end) ->
     from_to (fun d => same d /\ (ec = 0 -> L <= c_pos d)) m (fun x d => match x with inl _ => same d | inr _ => Inv d end)).
  { intros m Hm c [S _]. specialize (Hm c S). destruct (m c) as [[x|x] d| |]; auto. now apply tk_Inv. }
  destruct (ec =? 0) eqn:Ec.
  { destruct buf as [|x buf].
    - eapply ft_bind; [apply ft_modify with (Q := fun _ d => Inv d)|intros ?; now apply ft_ret]. intros c [S HL]. split; [exact S|]. intros _. cbn [c_pos with_tok]. split; [apply HL; lia|]. congruence.
    - eapply ft_bind; [apply ft_modify with (Q := fun _ d => Inv d)|intros ?; now apply ft_ret]. intros c [S HL]. split; [exact S|]. discriminate. }
  apply P. clear P.
  assert (G : forall m : M ((str * Z) + bool), ne m -> from_to same m (fun x d => match x with inl _ => same d | inr _ => tk d end)).
  { intros m H c S. specialize (H c S). destruct (m c) as [[x|x] d| |]; auto. apply H. }
  assert (B : forall A B (m : M A) (k : A -> M B) Q, tx m -> (forall a, from_to same (k a) Q) -> from_to same (bind m k) Q).
  { intros A B m k Q Hm. apply ft_bind with (R := fun _ => same). exact Hm. }
  repeat lazymatch goal with
  | |- from_to _ (ret (inl _)) _ => apply ft_ret; intuition
  | |- from_to _ (bind _ (fun _ => bind (settokenValue _ _) _)) _ => apply G; n
  | |- from_to _ (bind (setPos _) (fun _ => issue _)) _ => apply ft_fl; f
  | |- from_to _ (bind _ _) _ => apply B; [solve [t]|intros ?]
  | |- from_to _ (if ?b then _ else _) _ => destruct b
  | |- from_to _ (match ?b with _ => _ end) _ => destruct b
  | |- from_to _ (let _ := _ in _) _ => cbv zeta
  end.
Qed.
(** ** nextToken *)
Lemma mks_epp (rec : forall A, fn A -> M A) : o_epp o = true -> mks (rec unit FNextToken) -> mks (consumeEPP rec).
Proof.
  intros He Hn. unfold consumeEPP. apply mks_r.
  - intros c S. apply (ft_while (P := same) (Q := fun _ d => Inv d)); [intros a; now apply epp_step_end|exact S].
  - intros [|]; [now apply mks_kp|]. intros c H. exact H.
Qed.
Lemma mks_option B (k : bool -> M B) (g : opts -> bool) : mks (k (g o)) -> mks (bind (option_on g) k).
Proof. intros H c S. unfold bind, option_on, ask. rewrite (proj2 S). now apply H. Qed.

Lemma kp_bind A B (m : M A) (k : A -> M B) : kp m -> (forall a, kp (k a)) -> kp (bind m k).
Proof. intros Hm Hk c S. specialize (Hm c S). unfold bind. destruct (m c) as [a d| |]; auto. now apply Hk. Qed.
Lemma kp_ret A (a : A) : kp (ret a). Proof. intros c S. exact S. Qed.
Lemma kp_ask A (g : ctx -> A) : kp (ask g). Proof. intros c S. exact S. Qed.
Lemma kp_peek : kp peek. Proof. intros c S. unfold peek. destruct (rune_at _ _); auto. Qed.
Lemma kp_pop : kp popName. Proof. intros c S. unfold popName. destruct (c_names c); auto. Qed.
Lemma kp_modify g : (forall c, c_text (g c) = c_text c /\ c_opts (g c) = c_opts c /\ c_tok (g c) = c_tok c /\ c_pos (g c) = c_pos c /\ c_tsp (g c) = c_tsp c) -> kp (modify g).
Proof. intros H c [[S1 S2] N]. destruct (H c) as (H1 & H2 & H3 & H4 & H5). cbn. split; [split; congruence|]. now rewrite H3, H4, H5. Qed.
Lemma kp_option B (k : bool -> M B) (g : opts -> bool) : kp (k (g o)) -> kp (bind (option_on g) k).
Proof. intros H c S. unfold bind, option_on, ask. rewrite (proj2 (proj1 S)). now apply H. Qed.
Section Next.
Variable rec : forall A, fn A -> M A.
Hypothesis HT : forall A (f : fn A), tx (rec f).
Hypothesis HD : forall a b c d e f g, ne (rec (FDelim a b c d e f g)).
Hypothesis HN : mks (rec FNextToken).
Ltac m1 := lazymatch goal with
  | |- mks (rec FNextToken) => exact HN
  | |- mks (consumeEPP _) => apply mks_epp; [assumption|exact HN]
  | |- mks (bind (option_on ?g) _) => apply mks_option; case_eq (g o); intros ?
  | |- mks (bind _ _) => apply mks_l; [solve [t]|intros ?]
  | |- mks (if ?b && true then _ else _) => rewrite (Bool.andb_true_r b)
  | |- mks (if ?b && false then _ else _) => rewrite (Bool.andb_false_r b); cbv iota
  | |- mks (match ?b with _ => _ end) => destruct b
  | |- mks _ => apply ne_mks; solve [n]
  end.
Lemma mks_minus : mks (lex_minus rec). Proof. unfold lex_minus. repeat m1. Qed.
Lemma mks_less : mks (lex_less rec). Proof. unfold lex_less. repeat m1. Qed.
Lemma mks_percent : mks (lex_percent rec).
Proof.
  unfold lex_percent. apply mks_r; [apply ne_mks; n|]. intros _. apply kp_option. case_eq (o_epp o); intros E; [|apply kp_ret].
  apply kp_bind; [apply kp_peek|]. intros [c sz]. destruct (c =? _); [|apply kp_ret]. apply mks_kp. repeat m1.
Qed.
Lemma mks_token scanStart start c : c <> 0 -> mks (lex_token rec scanStart start c).
Proof.
  intros Hc. unfold lex_token.
  repeat (lazymatch goal with
  | |- mks (if c =? 0 then _ else _) => replace (c =? 0) with false by lia; cbv iota
  | |- mks (if _ then lex_minus _ else _) => destruct (_ =? _); [apply mks_minus|]
  | |- mks (if _ then lex_percent _ else _) => destruct (_ =? _); [apply mks_percent|]
  | |- mks (if _ then lex_less _ else _) => destruct (_ =? _); [apply mks_less|]
  | |- mks (if ?b then _ else _) => destruct b; [apply ne_mks; solve [n]|]
  end).
  apply ne_mks; n.
Qed.
Lemma mks_next : mks (nextToken_body rec).
Proof.
  unfold nextToken_body. apply mks_l; [t|]. intros ss c S. unfold bind at 1.
  generalize (white false (k := c_tok c) (p0 := c_pos c) (tsp := c_tsp c) (conj S (conj eq_refl (conj eq_refl (fun _ => eq_refl))))).
  destruct (skipWhite false c) as [[r s] d| |]; auto. cbn [fst snd]. intros (Sd & _ & _ & Hz & _).
  unfold bind, modify. destruct (Z.eq_dec r 0) as [->|Nr]; [|now apply mks_token]. destruct (Hz eq_refl) as [H1 H2].
  cbn. split; [exact Sd|]. cbn. intros _. split; [exact H2|intros _; exact H1].
Qed.
(** ** The parser *)
Hypothesis HP : forall A (f : fn A), match f with FNextToken | FDelim _ _ _ _ _ _ _ | FApply _ _ _ _ _ _ _ => True | _ => kp (rec f) end.
Lemma kp_identifier B (k : option str -> M B) : (forall x, kp (k (Some x))) -> fl (k None) -> kp (bind (identifier rec) k).
Proof.
  intros H1 H2. intros c Hc. unfold identifier, bind, tokStart, curTok, ask. destruct (tok_eqb (c_tok c) TIdentifier).
  - unfold tokenString, bind, ask. destruct (c_val c); unfold throw; auto; pose proof (HN (proj1 Hc)) as G; cbn; destruct (rec FNextToken c) as [[] d| |]; auto; apply H1, G.
  - destruct (keyword (c_tok c)) as [w|].
    + pose proof (HN (proj1 Hc)) as G. destruct (rec FNextToken c) as [[] d| |]; auto. apply H1, G.
    + cbn. match goal with |- match k None ?d with _ => _ end => pose proof (H2 d) as G; destruct (k None d); tauto end.
Qed.
Lemma kp_identifierExpr B (k : option (pos * str) -> M B) : (forall x, kp (k (Some x))) -> fl (k None) -> kp (bind (identifierExpr rec) k).
Proof.
  intros H1 H2. intros c Hc. unfold identifierExpr, bind, tokStart, curTok, ask. destruct (tok_eqb (c_tok c) TIdentifier).
  - unfold tokenString, bind, ask. destruct (c_val c); unfold throw; auto; pose proof (HN (proj1 Hc)) as G; cbn; destruct (rec FNextToken c) as [[] d| |]; auto; apply H1, G.
  - destruct (keyword (c_tok c)) as [w|].
    + pose proof (HN (proj1 Hc)) as G. destruct (rec FNextToken c) as [[] d| |]; auto. apply H1, G.
    + cbn. match goal with |- match k None ?d with _ => _ end => pose proof (H2 d) as G; destruct (k None d); tauto end.
Qed.
Ltac k_hook := fail.
Ltac k1 := first [k_hook|lazymatch goal with
  | |- kp (bind (setPos _) _) => apply fl_kp; solve [f]
  | |- kp (bind toTokenStart _) => apply fl_kp; solve [f]
  | |- kp (bind (modify (fun c => with_pos (c_tsp c) c)) _) => apply fl_kp; solve [f]
  | |- kp (bind (identifier _) _) => apply kp_identifier; [intros ?|solve [f]]
  | |- kp (bind (identifierExpr _) _) => apply kp_identifierExpr; [intros [? ?]|solve [f]]
  | |- kp (bind _ _) => apply kp_bind; [|intros ?]
  | |- kp (ret _) => apply kp_ret
  | |- kp (ask _) => apply kp_ask
  | |- kp peek => apply kp_peek
  | |- kp popName => apply kp_pop
  | |- kp (throw _) => apply fl_kp, fl_throw
  | |- kp (issue2 _ _) => apply fl_kp, fl_issue
  | |- kp (rec FNextToken) => apply mks_kp, HN
  | |- kp (rec ?f) => exact (HP f)
  | |- kp (modify _) => apply kp_modify; intros ?; repeat split; reflexivity
  | |- kp (let _ := _ in _) => cbv zeta
  | |- kp (match ?x with _ => _ end) => destruct x
  | |- kp ?m => let h := head_of m in progress unfold h
  end].
Ltac k := repeat k1.
Lemma kp_commas es : kp (check_commas es).
Proof. induction es as [|e es IH]; cbn [check_commas]; [k|]. destruct e; try exact IH. k. Qed.
Ltac k_hook ::= lazymatch goal with
  | |- kp (check_commas _) => apply kp_commas
  end.
Lemma kp_step : kp (step rec).
Proof.
  unfold step. apply kp_bind; [k|]. intros start. apply kp_bind; [k|]. intros e. apply kp_option. case_eq (o_workflow o); intros W; [|k].
  assert (o_epp o = false) as E by (case_eq (o_epp o); intros E; [rewrite (mode E) in W; discriminate|reflexivity]).
  destruct e; try (k; fail). destruct (workflowStyle _); [|k].
  apply kp_bind; [|intros [x|]; k].
  intros c Hc. unfold identifier, bind, tokStart, curTok, ask. destruct (tok_eqb (c_tok c) TIdentifier).
  - unfold tokenString, bind, ask. destruct (c_val c); unfold throw; auto; pose proof (HN (proj1 Hc)) as G; cbn; destruct (rec FNextToken c) as [[] d| |]; auto.
  - destruct (keyword (c_tok c)) as [w|].
    + pose proof (HN (proj1 Hc)) as G. destruct (rec FNextToken c) as [[] d| |]; auto.
    + cbn. destruct Hc as [S H]. split; [exact S|]. cbn. intros Et. destruct (H Et) as [_ H']. specialize (H' E). auto.
Qed.
Ltac k_hook ::= lazymatch goal with
  | |- kp (check_commas _) => apply kp_commas
  | |- kp (step _) => apply kp_step
  end.
Lemma kp_parse e s : kp (parse_body rec e s).
Proof.
  unfold parse_body. intros c Hc. unfold bind at 1.
  generalize (white false (k := c_tok c) (p0 := c_pos c) (tsp := c_tsp c) (conj (proj1 Hc) (conj eq_refl (conj eq_refl (fun _ => eq_refl))))).
  destruct (skipWhite false c) as [[r st] d| |]; auto. cbn [fst snd]. intros (Sd & E1 & E2 & _ & H).
  unfold bind at 1. cbn [setPos modify].
  assert (kp (if s then cur <- curTok ;; (if tok_eqb cur e then ret (EUndef (mkpos st 0)) else x <- rec FRelationship ;; assertToken e ;; ret x)
    else es <- rec (FStatements e []) ;; ss <- transformCalls es ;; p <- span st ;; ret (EBlock p ss))) as G by k.
  apply G. split; [exact Sd|]. cbn. destruct Hc as [S HE]. rewrite E1, E2. intros Et. destruct (HE Et) as [H1 H2]. split; [auto|exact H2].
Qed.
Lemma kp_unary : kp (unary_body rec).
Proof.
  unfold unary_body. apply kp_bind; [k|]. intros us. apply kp_bind; [k|]. intros cur. destruct cur. all: try (k; fail).
  apply kp_bind; [k|]. intros [c z]. destruct (isDecimalDigit c); [|k]. apply kp_bind; [k|]. intros _.
  intros d Hd. unfold bind at 1. cbn [curTok ask]. unfold bind at 1. cbn [ask]. unfold bind.
  assert (kp (signed_number rec us)) as G by k.
  destruct (tok_eqb (c_tok d) TInteger), (c_val d); cbn; auto; apply G; exact Hd.
Qed.
Lemma kp_resource start first form : kp (resourceExpr_body rec start first form).
Proof.
  unfold resourceExpr_body. apply kp_bind; [k|]. intros bs. apply kp_bind; [k|]. intros _. apply kp_bind; [k|]. intros ts. apply kp_bind; [k|]. intros cur. apply kp_bind; [k|]. intros ft. apply kp_bind; [k|]. intros cur'.
  cbv zeta. destruct (negb _); [|k]. apply mks_kp. apply mks_l; [t|]. intros _. apply mks_l; [t|]. intros sh.
  assert (B : mks (bind (setPos bs) (fun _ => rec FNextToken))) by (apply mks_l; [t|intros _; exact HN]).
  destruct sh as [name| | |].
  - destruct (isStatementCall name); [|apply fl_mks; f]. apply mks_r; [exact B|]. intros _. k.
  - apply mks_r; [exact B|]. intros _. k.
  - apply mks_r; [exact B|]. intros _. k.
  - apply fl_mks; f.
Qed.
Ltac k_hook ::= lazymatch goal with
  | |- kp (check_commas _) => apply kp_commas
  | |- kp (step _) => apply kp_step
  | |- kp (parse_body _ _ _) => apply kp_parse
  | |- kp (unary_body _) => apply kp_unary
  | |- kp (resourceExpr_body _ _ _ _) => apply kp_resource
  end.
Lemma kp_body A (f : fn A) : match f with FNextToken | FDelim _ _ _ _ _ _ _ | FApply _ _ _ _ _ _ _ => True | _ => kp (body rec f) end.
Proof. destruct f; try exact Logic.I; cbn [body]. all: k. Qed.
Lemma mks_top single : mks (parseTop rec single).
Proof.
  unfold parseTop. apply mks_option. case_eq (o_epp o); intros E.
  - apply mks_r; [now apply mks_epp|]. intros _. k.
  - apply mks_r; [exact HN|]. intros _. k.
Qed.
End Next.

Lemma good_run n : (forall a b c d e f g, ne (run n (FDelim a b c d e f g))) /\ mks (run n FNextToken)
  /\ (forall A (f : fn A), match f with FNextToken | FDelim _ _ _ _ _ _ _ | FApply _ _ _ _ _ _ _ => True | _ => kp (run n f) end).
Proof.
  induction n as [|n (I1 & I2 & I3)].
  - split; [|split]; [intros; intros x _; exact Logic.I|intros x _; exact Logic.I|]. intros A f. destruct f; try exact Logic.I; intros x _; exact Logic.I.
  - cbn [run]. split; [|split].
    + intros. cbn [body]. apply ne_delim; first [exact I1|exact (tx_run n)].
    + cbn [body]. apply mks_next; first [exact I1|exact I2|exact (tx_run n)].
    + intros A f. apply kp_body; first [exact I1|exact I2|exact I3|exact (tx_run n)].
Qed.
(** ** The last token *)
Definition en A (e : tok) (m : M A) : Prop := forall c, match m c with Ok _ d => c_tok d = e | _ => True end.
Definition kt A (m : M A) : Prop := forall c, match m c with Ok _ d => c_tok d = c_tok c | _ => True end.
Lemma en_r A B e (m : M A) (k : A -> M B) : (forall a, en e (k a)) -> en e (bind m k).
Proof. intros H c. unfold bind. destruct (m c) as [a d| |]; auto. apply H. Qed.
Lemma en_l A B e (m : M A) (k : A -> M B) : en e m -> (forall a, kt (k a)) -> en e (bind m k).
Proof. intros H HK c. specialize (H c). unfold bind. destruct (m c) as [a d| |]; auto. specialize (HK a d). destruct (k a d); auto. congruence. Qed.
Lemma en_fl A e (m : M A) : fl m -> en e m. Proof. intros H c. specialize (H c). destruct (m c); tauto. Qed.
Lemma kt_bind A B (m : M A) (k : A -> M B) : kt m -> (forall a, kt (k a)) -> kt (bind m k).
Proof. intros H HK c. specialize (H c). unfold bind. destruct (m c) as [a d| |]; auto. specialize (HK a d). destruct (k a d); auto. congruence. Qed.
Lemma kt_ret A (a : A) : kt (ret a). Proof. intros c. reflexivity. Qed.
Lemma kt_ask A (g : ctx -> A) : kt (ask g). Proof. intros c. reflexivity. Qed.
Lemma kt_fl A (m : M A) : fl m -> kt m. Proof. intros H c. specialize (H c). destruct (m c); tauto. Qed.
Lemma kt_sum A (s : A + err) : kt (of_sum s). Proof. intros c. unfold of_sum. destruct s; cbn; auto. Qed.
Lemma kt_commas es : kt (check_commas es).
Proof.
  induction es as [|e es IH]; cbn [check_commas]; [apply kt_ret|]. destruct e; try exact IH.
  match goal with |- kt (match ?l with _ => _ end) => destruct l end; [apply kt_fl; f|]. cbv zeta. apply kt_fl; f.
Qed.
Lemma kt_transform es : kt (transformCalls es).
Proof.
  unfold transformCalls. destruct es as [|m es]; [apply kt_ret|]. destruct (transform_from m es) as [r [|]]; (apply kt_bind; [|intros; apply kt_ret]); [apply kt_commas|apply kt_ret].
Qed.
Lemma en_ask A e (k : tok -> M A) : (forall c, match k (c_tok c) c with Ok _ d => c_tok d = e | _ => True end) -> en e (bind curTok k).
Proof. intros H c. exact (H c). Qed.
Lemma en_assert e : en e (assertToken e).
Proof.
  apply en_ask. intros c. destruct (tok_eqb (c_tok c) e) eqn:E; cbn; [|exact Logic.I]. revert E. destruct (c_tok c), e; cbn; congruence.
Qed.
Lemma tok_eqb_eq x y : tok_eqb x y = true -> x = y. Proof. destruct x, y; cbn; congruence. Qed.
Lemma en_statements n e acc : en e (run n (FStatements e acc)).
Proof.
  revert acc. induction n as [|n IH]; intros acc; [intros c; exact Logic.I|]. cbn [run body]. unfold statements_body. apply en_ask. intros c.
  destruct (tok_eqb (c_tok c) e) eqn:E; [apply tok_eqb_eq, E|].
  revert c E. assert (forall m : M (list expr), en e m -> forall c, tok_eqb (c_tok c) e = false -> match m c with Ok _ d => c_tok d = e | _ => True end) as G by (intros m H c _; apply H).
  apply G. apply en_r. intros x. apply en_r. intros cur. apply en_r. intros _. apply IH.
Qed.
Lemma en_eppLoop n acc : en TEnd (run n (FEppLoop acc)).
Proof.
  revert acc. induction n as [|n IH]; intros acc; [intros c; exact Logic.I|]. cbn [run body]. unfold eppLoop_body. apply en_ask. intros c.
  destruct (tok_eqb (c_tok c) TEnd) eqn:E.
  - apply tok_eqb_eq in E. match goal with |- match ?m c with _ => _ end => assert (kt m) as K end.
    { apply kt_bind; [apply kt_transform|]. intros ss. apply kt_bind; [apply kt_ask|]. intros p. unfold asEppLambda. apply kt_bind; [apply kt_ask|]. intros q. apply kt_ret. }
    specialize (K c). match goal with |- match ?m with _ => _ end => destruct m end; auto. congruence.
  - revert c E. assert (forall m : M expr, en TEnd m -> forall c, tok_eqb (c_tok c) TEnd = false -> match m c with Ok _ d => c_tok d = TEnd | _ => True end) as G by (intros m H c _; apply H).
    apply G. apply en_r. intros x. apply IH.
Qed.
Lemma en_parse n e s : en e (run n (FParse e s)).
Proof.
  destruct n as [|n]; [intros c; exact Logic.I|]. cbn [run body]. unfold parse_body. apply en_r. intros [r st]. apply en_r. intros _. destruct s.
  - apply en_ask. intros c. destruct (tok_eqb (c_tok c) e) eqn:E; [apply tok_eqb_eq, E|].
    revert c E. assert (forall m : M expr, en e m -> forall c, tok_eqb (c_tok c) e = false -> match m c with Ok _ d => c_tok d = e | _ => True end) as G by (intros m H c _; apply H).
    apply G. apply en_r. intros x. apply en_l; [apply en_assert|intros _; apply kt_ret].
  - apply en_l; [apply en_statements|]. intros es. apply kt_bind; [apply kt_transform|]. intros ss. apply kt_bind; [apply kt_ask|intros p; apply kt_ret].
Qed.
Lemma kt_lambda e : kt (asEppLambda e).
Proof. unfold asEppLambda. apply kt_bind; [apply kt_ask|]. intros p. repeat lazymatch goal with |- kt (match ?x with _ => _ end) => destruct x end; apply kt_ret. Qed.
Lemma en_top n single : en TEnd (parseTop (run n) single).
Proof.
  unfold parseTop. apply en_r. intros [|].
  - apply en_r. intros _. apply en_r. intros cur. apply en_r. intros text. apply en_ask. intros c. destruct (tok_eqb (c_tok c) TEnd) eqn:E.
    + apply tok_eqb_eq in E. match goal with |- match ?m c with _ => _ end => assert (kt m) as K by (apply kt_bind; [apply kt_ask|intros p; apply kt_lambda]) end.
      specialize (K c). match goal with |- match ?m with _ => _ end => destruct m end; auto. congruence.
    + revert c E. assert (forall m : tok -> M expr, (forall x, en TEnd (m x)) -> forall c, tok_eqb (c_tok c) TEnd = false -> match m (c_tok c) c with Ok _ d => c_tok d = TEnd | _ => True end) as G by (intros m H c _; apply H).
      apply (G (fun x => if tok_eqb x TPipe then _ else _)). intros x. destruct (tok_eqb x TPipe).
      * destruct text; [|apply en_fl; f]. apply en_r. intros ps. apply en_r. intros _. apply en_l; [apply en_parse|]. intros b. apply kt_bind; [apply kt_ask|intros p; apply kt_lambda].
      * apply en_r. intros ts. apply en_eppLoop.
  - apply en_r. intros _. apply en_parse.
Qed.
Theorem read_all n c single : c_opts c = o ->
  match parse_run n c T single with Ok _ d => L <= c_pos d | _ => True end.
Proof.
  intros Ho. unfold parse_run. destruct (good_run n) as (I1 & I2 & I3).
  pose proof (@mks_top (run n) I2 I3 single (start_ctx T c) (conj eq_refl Ho)) as H. pose proof (en_top n single (start_ctx T c)) as K.
  destruct (parseTop _ _ _) as [e d| |]; auto. apply (proj2 H K).
Qed.
End Whole.
