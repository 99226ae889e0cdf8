(** * Wp: weakest preconditions for the parser monad

    [wp E m c Q]: running [m] from [c] ends normally in [Q], or fails in [E],
    or runs out of fuel. *)
From Verif Require Import Base Float Tokens Ast Ctx.

Definition wp (E : err -> ctx -> Prop) (A : Type) (m : M A) (c : ctx) (Q : A -> ctx -> Prop) : Prop :=
  match m c with
  | Ok a c' => Q a c'
  | Err e c' => E e c'
  | Fuel => True
  end.

Section Rules.
Variable E : err -> ctx -> Prop.
Lemma wp_weaken A (m : M A) c (Q Q' : A -> ctx -> Prop) :
  wp E m c Q -> (forall a c', Q a c' -> Q' a c') -> wp E m c Q'.
Proof. unfold wp. destruct (m c); auto. Qed.
Lemma wp_bind A B (m : M A) (k : A -> M B) c Q :
  wp E m c (fun a c' => wp E (k a) c' Q) -> wp E (bind m k) c Q.
Proof. unfold wp, bind. destruct (m c); auto. Qed.
Lemma wp_ret A (a : A) c (Q : A -> ctx -> Prop) : Q a c -> wp E (ret a) c Q.
Proof. exact (fun H => H). Qed.
Lemma wp_ask A (f : ctx -> A) c (Q : A -> ctx -> Prop) : Q (f c) c -> wp E (ask f) c Q.
Proof. exact (fun H => H). Qed.
Lemma wp_modify (f : ctx -> ctx) c (Q : unit -> ctx -> Prop) : Q tt (f c) -> wp E (modify f) c Q.
Proof. exact (fun H => H). Qed.
Lemma wp_throw A e c (Q : A -> ctx -> Prop) : E e c -> wp E (throw e) c Q.
Proof. exact (fun H => H). Qed.
Lemma wp_issue2 A code a c (Q : A -> ctx -> Prop) : E (Issue code a (c_pos c)) c -> wp E (issue2 code a) c Q.
Proof. exact (fun H => H). Qed.
Lemma wp_fuel A c (Q : A -> ctx -> Prop) : wp E out_of_fuel c Q.
Proof. exact I. Qed.
Lemma wp_loop A B (I : A -> ctx -> Prop) n (body : A -> M (A + B)) (Q : B -> ctx -> Prop) :
  (forall a c, I a c -> wp E (body a) c (fun r c' => match r with inl a' => I a' c' | inr b => Q b c' end)) ->
  forall a c, I a c -> wp E (loop n body a) c Q.
Proof.
  intros HB. induction n as [|n IH]; intros a c Ha; [exact Logic.I|].
  cbn [loop]. apply wp_bind. eapply wp_weaken; [apply HB, Ha|]. intros [a'|b] c' H; cbn beta iota in *; [now apply IH|exact H].
Qed.
Lemma wp_while A B (I : A -> ctx -> Prop) (body : A -> M (A + B)) (Q : B -> ctx -> Prop) a c :
  I a c ->
  (forall a c, I a c -> wp E (body a) c (fun r c' => match r with inl a' => I a' c' | inr b => Q b c' end)) ->
  wp E (while body a) c Q.
Proof. intros H HB. unfold while, wp. exact (@wp_loop A B I (loop_fuel c) body Q HB a c H). Qed.
Lemma wp_conj A (m : M A) c (Q Q' : A -> ctx -> Prop) : wp E m c Q -> wp E m c Q' -> wp E m c (fun a c' => Q a c' /\ Q' a c').
Proof. unfold wp. destruct (m c); auto. Qed.
End Rules.
Lemma wp_mono_err (E E' : err -> ctx -> Prop) A (m : M A) c Q :
  wp E m c Q -> (forall e c', E e c' -> E' e c') -> wp E' m c Q.
Proof. unfold wp. destruct (m c); auto. Qed.

(** ** What leaves the token and the parser's results alone *)
(** [frame c c']: only positions (and the radix) changed *)
Definition frame (c c' : ctx) : Prop :=
  exists p n b t r, c' = mkctx (c_text c) (c_opts c) p n (c_tok c) b t (c_val c) r (c_names c) (c_defs c).
Lemma frame_refl c : frame c c.
Proof. exists (c_pos c), (c_nls c), (c_bol c), (c_tsp c), (c_radix c). now destruct c. Qed.
Lemma frame_trans a b c : frame a b -> frame b c -> frame a c.
Proof. intros (p & n & b' & t & r & ->) (p' & n' & b'' & t' & r' & ->). cbn. now exists p', n', b'', t', r'. Qed.
Lemma frame_pos p c : frame c (with_pos p c).
Proof. exists p, (c_nls c), (c_bol c), (c_tsp c), (c_radix c). now destruct c. Qed.
Lemma frame_nls p c : frame c (with_nls p c).
Proof. exists (c_pos c), p, (c_bol c), (c_tsp c), (c_radix c). now destruct c. Qed.
Lemma frame_bol p c : frame c (with_bol p c).
Proof. exists (c_pos c), (c_nls c), p, (c_tsp c), (c_radix c). now destruct c. Qed.
Lemma frame_tsp p c : frame c (with_tsp p c).
Proof. exists (c_pos c), (c_nls c), (c_bol c), p, (c_radix c). now destruct c. Qed.
Lemma frame_radix p c : frame c (with_radix p c).
Proof. exists (c_pos c), (c_nls c), (c_bol c), (c_tsp c), p. now destruct c. Qed.
(** a computation that only changes positions *)
Definition framed (A : Type) (m : M A) : Prop := forall c, wp (fun _ c' => frame c c') m c (fun _ c' => frame c c').
Lemma framed_bind A B (m : M A) (k : A -> M B) : framed m -> (forall a, framed (k a)) -> framed (bind m k).
Proof.
  intros Hm Hk c. apply wp_bind. eapply wp_weaken; [apply Hm|]. intros a c' H. cbn beta.
  specialize (Hk a c'). unfold wp in *. destruct (k a c'); eauto using frame_trans.
Qed.
Lemma framed_ret A (a : A) : framed (ret a). Proof. intros c. apply frame_refl. Qed.
Lemma framed_ask A (f : ctx -> A) : framed (ask f). Proof. intros c. apply frame_refl. Qed.
Lemma framed_throw A e : framed (@throw A e). Proof. intros c. apply frame_refl. Qed.
Lemma framed_issue2 A code a : framed (@issue2 A code a). Proof. intros c. apply frame_refl. Qed.
Lemma framed_issue A code : framed (@issue A code). Proof. intros c. apply frame_refl. Qed.
Lemma framed_setPos p : framed (setPos p). Proof. intros c. apply frame_pos. Qed.
Lemma framed_advance p : framed (advance p). Proof. intros c. apply frame_pos. Qed.
Lemma framed_modify f : (forall c, frame c (f c)) -> framed (modify f). Proof. intros H c. apply H. Qed.
Lemma framed_peek : framed peek.
Proof. intros c. unfold peek, wp. destruct rune_at; apply frame_refl. Qed.
Lemma framed_peekAt p : framed (peekAt p).
Proof. intros c. unfold peekAt, wp. destruct (p <? 0); [|destruct rune_at]; apply frame_refl. Qed.
Lemma framed_next : framed next.
Proof. intros c. unfold next, wp. destruct rune_at as [[r w]|]; [apply frame_pos|apply frame_refl]. Qed.
Lemma framed_from p : framed (from p).
Proof. intros c. unfold from, wp. destruct (_ && _); apply frame_refl. Qed.
Lemma framed_while A B (body : A -> M (A + B)) a : (forall a, framed (body a)) -> framed (while body a).
Proof.
  intros H c. eapply wp_while with (I := fun _ c' => frame c c'); [apply frame_refl|].
  intros x c' Hc. specialize (H x c'). unfold wp in *. destruct (body x c') as [[y|y] ?|? ?|]; eauto using frame_trans.
Qed.

(** ** Tactics *)
(** Case analysis on what a computation matches on. *)
Ltac m_case :=
  match goal with
  | |- context [let '(_, _) := ?x in _] => is_var x; destruct x
  | |- context [match ?x with _ => _ end] =>
    first [ is_var x; destruct x | destruct x eqn:? ]
  end.
Ltac framed1 :=
  match goal with
  | |- framed (bind _ _) => apply framed_bind; [|intros]
  | |- framed (ret _) => apply framed_ret
  | |- framed (ask _) => apply framed_ask
  | |- framed (throw _) => apply framed_throw
  | |- framed (issue2 _ _) => apply framed_issue2
  | |- framed (issue _) => apply framed_issue
  | |- framed (setPos _) => apply framed_setPos
  | |- framed (advance _) => apply framed_advance
  | |- framed peek => apply framed_peek
  | |- framed (peekAt _) => apply framed_peekAt
  | |- framed next => apply framed_next
  | |- framed (from _) => apply framed_from
  | |- framed getPos => apply framed_ask
  | |- framed (option_on _) => apply framed_ask
  | |- framed (isLetterM _) => apply framed_ask
  | |- framed curTok => apply framed_ask
  | |- framed (while _ _) => apply framed_while; intros
  | |- framed (match ?x with _ => _ end) => first [is_var x; destruct x | destruct x eqn:?]
  | |- framed (if ?x then _ else _) => destruct x eqn:?
  | |- framed (modify _) => apply framed_modify; intro; try apply frame_pos; try apply frame_nls; try apply frame_bol; try apply frame_tsp; try apply frame_radix
  end.
Ltac framed_tac := repeat (cbn beta; framed1).
