(** * FuelMono: more fuel never changes an outcome

    [run n f c] is [Fuel] or what every larger [n] gives.  So the outcome of
    Parse is well defined: the fuel is no part of it. *)
From Verif Require Import Base Float Tokens Ast Ctx Lexer Parser.

Definition le (A : Type) (m m' : M A) : Prop := forall c, m c = Fuel \/ m c = m' c.
Lemma le_refl A (m : M A) : le m m.
Proof. intros c. now right. Qed.
Lemma le_bind A B (m m' : M A) (k k' : A -> M B) :
  le m m' -> (forall a, le (k a) (k' a)) -> le (bind m k) (bind m' k').
Proof.
  intros Hm Hk c. unfold bind. destruct (Hm c) as [->| ->]; [now left|]. destruct (m' c); [apply Hk|now right|now right].
Qed.
Lemma le_loop A B n (b b' : A -> M (A + B)) : (forall a, le (b a) (b' a)) -> forall a, le (loop n b a) (loop n b' a).
Proof.
  intros H. induction n as [|n IH]; intros a; [intros c; now left|]. cbn [loop]. apply le_bind; [apply H|].
  intros [a'|x]; [apply IH|apply le_refl].
Qed.
Lemma le_while A B (b b' : A -> M (A + B)) a : (forall a, le (b a) (b' a)) -> le (while b a) (while b' a).
Proof. intros H c. unfold while. now apply le_loop. Qed.

Ltac head_of t := lazymatch t with ?f _ => head_of f | _ => t end.
Ltac mono1 :=
  cbv beta iota;
  match goal with
  | |- le ?m ?m => apply le_refl
  | |- le (bind _ _) (bind _ _) => apply le_bind; [|intros ?]
  | |- le (while _ _) (while _ _) => apply le_while; intros ?
  | H : forall A (f : fn A), le _ _ |- le _ _ => apply H
  | |- le (let _ := _ in _) _ => cbv zeta
  | |- le (match ?x with _ => _ end) _ => destruct x
  | |- le ?m _ => let h := head_of m in progress unfold h
  end.
Ltac mono := repeat mono1.

Section Mono.
Variables rec rec' : forall A, fn A -> M A.
Hypothesis H : forall A (f : fn A), le (@rec A f) (@rec' A f).
Lemma body_mono A (f : fn A) : le (body rec f) (body rec' f).
Proof. destruct f; cbn [body]; mono. Qed.
Lemma parseTop_mono single : le (parseTop rec single) (parseTop rec' single).
Proof. mono. Qed.
End Mono.

Lemma run_S n A (f : fn A) : le (run n f) (run (S n) f).
Proof.
  revert A f. induction n as [|n IH]; intros A f; [intros c; now left|]. apply (@body_mono (run n) (run (S n)) IH).
Qed.
Lemma le_trans A (a b c : M A) : le a b -> le b c -> le a c.
Proof. intros H1 H2 x. destruct (H1 x) as [->| ->]; [now left|apply H2]. Qed.
Lemma run_mono n m A (f : fn A) : (n <= m)%nat -> le (run n f) (run m f).
Proof.
  intros Hm. induction Hm as [|m Hm IH]; [apply le_refl|]. eapply le_trans; [exact IH|apply run_S].
Qed.
Theorem parse_run_mono n m c source single : (n <= m)%nat -> parse_run n c source single <> Fuel ->
  parse_run m c source single = parse_run n c source single.
Proof.
  intros Hm. unfold parse_run.
  destruct (parseTop_mono (rec := run n) (rec' := run m) (fun A f => run_mono f Hm) single (start_ctx source c)) as [E|E]; rewrite E; congruence.
Qed.
Corollary parse_run_unique n m c source single : parse_run n c source single <> Fuel -> parse_run m c source single <> Fuel ->
  parse_run n c source single = parse_run m c source single.
Proof.
  intros Hn Hm. destruct (Nat.le_ge_cases n m) as [H|H]; [symmetry|]; now apply parse_run_mono.
Qed.
