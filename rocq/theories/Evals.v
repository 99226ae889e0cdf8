(** * Evals: what a computation yields given enough fuel *)
From Verif Require Import Base Float Tokens Ast Ctx Lexer Parser LexBase.
From Coq Require Import Lia.

Notation recT := (forall A : Type, fn A -> M A).
(** [evals m c a c']: with enough fuel, [m] yields [a] and the state [c'] *)
Definition evals (A : Type) (m : recT -> M A) (c : ctx) (a : A) (c' : ctx) : Prop :=
  exists n0, forall n, (n0 <= n)%nat -> m (run n) c = Ok a c'.
Lemma ev_const A (m : M A) c a c' : m c = Ok a c' -> evals (fun _ => m) c a c'.
Proof. intros H. exists O. auto. Qed.
Lemma ev_all A (m : recT -> M A) c a c' : (forall r : recT, m r c = Ok a c') -> evals m c a c'.
Proof. intros H. exists O. auto. Qed.
Lemma ev_bind A B (m : recT -> M A) (k : recT -> A -> M B) c a c1 b c2 :
  evals m c a c1 -> evals (fun r => k r a) c1 b c2 -> evals (fun r => bind (m r) (k r)) c b c2.
Proof.
  intros (n1 & H1) (n2 & H2). exists (Nat.max n1 n2). intros n Hn. unfold bind. rewrite H1 by lia. apply H2. lia.
Qed.
Lemma ev_step A B (m : M A) (k : recT -> A -> M B) c a c1 b c2 :
  m c = Ok a c1 -> evals (fun r => k r a) c1 b c2 -> evals (fun r => bind m (k r)) c b c2.
Proof. intros H. apply (@ev_bind _ _ (fun _ => m)). now apply ev_const. Qed.
Lemma ev_rec A (f : fn A) c a c' : evals (fun r => body r f) c a c' -> evals (fun r => r A f) c a c'.
Proof. intros (n & H). exists (S n). intros k Hk. destruct k as [|k]; [lia|]. cbn [run]. apply H. lia. Qed.
Lemma ev_ret A (a : A) c : evals (fun _ => ret a) c a c. Proof. apply ev_const. reflexivity. Qed.
Lemma ev_eq A (m : recT -> M A) c a c' c1 a1 : evals m c a c1 -> c1 = c' -> a1 = a -> evals m c a1 c'.
Proof. now intros H -> ->. Qed.
(** a computation may be replaced by one that does the same in this state *)
Lemma ev_same A (m m' : recT -> M A) c a c' : (forall r, m r c = m' r c) -> evals m' c a c' -> evals m c a c'.
Proof. intros E (n & H). exists n. intros k Hk. rewrite E. auto. Qed.
Lemma ev_det A (m : recT -> M A) c a c' a1 c1 : evals m c a c' -> evals m c a1 c1 -> a = a1 /\ c' = c1.
Proof. intros (n & H) (n1 & H1). specialize (H (Nat.max n n1) ltac:(lia)). specialize (H1 (Nat.max n n1) ltac:(lia)). rewrite H in H1. now inversion H1. Qed.
Lemma ev_from A (m m' : recT -> M A) c c1 a c' : (forall r, m r c = m' r c1) -> evals m' c1 a c' -> evals m c a c'.
Proof. intros E (n & H). exists n. intros k Hk. rewrite E. auto. Qed.
