(** * Ends: total correctness of the parser's functions, given enough fuel *)
From Verif Require Import Base Float Tokens Ast Ctx Lexer Parser Evals.
From Coq Require Import Lia.

(** with enough fuel, [m] yields a result that satisfies [Q] *)
Definition ends (A : Type) (m : recT -> M A) (c : ctx) (Q : A -> ctx -> Prop) : Prop := exists a c', evals m c a c' /\ Q a c'.
Lemma ends_bind A B (m : recT -> M A) (k : recT -> A -> M B) c Q :
  ends m c (fun a c1 => ends (fun r => k r a) c1 Q) -> ends (fun r => bind (m r) (k r)) c Q.
Proof. intros (a & c1 & H1 & b & c2 & H2 & HQ). exists b, c2. split; [eapply ev_bind; eauto|exact HQ]. Qed.
Lemma ends_rec A (f : fn A) c Q : ends (fun r => body r f) c Q -> ends (fun r => r A f) c Q.
Proof. intros (a & c1 & H1 & HQ). exists a, c1. split; [now apply ev_rec|exact HQ]. Qed.
Lemma ends_ret A (a : A) c (Q : A -> ctx -> Prop) : Q a c -> ends (fun _ => ret a) c Q.
Proof. intros H. exists a, c. split; [apply ev_ret|exact H]. Qed.
Lemma ends_imp A (m : recT -> M A) c (P Q : A -> ctx -> Prop) : ends m c P -> (forall a c1, P a c1 -> Q a c1) -> ends m c Q.
Proof. intros (a & c1 & H1 & HP) H. exists a, c1. auto. Qed.
Lemma ends_ev A (m : recT -> M A) c a c1 (Q : A -> ctx -> Prop) : evals m c a c1 -> Q a c1 -> ends m c Q.
Proof. intros. exists a, c1. auto. Qed.
Lemma ends_step A B (m : M A) (k : recT -> A -> M B) c a c1 Q : m c = Ok a c1 -> ends (fun r => k r a) c1 Q -> ends (fun r => bind m (k r)) c Q.
Proof. intros H (b & c2 & H2 & HQ). exists b, c2. split; [eapply ev_step; eauto|exact HQ]. Qed.
Lemma ends_ask A B (f : ctx -> A) (k : recT -> A -> M B) c Q : ends (fun r => k r (f c)) c Q -> ends (fun r => bind (ask f) (k r)) c Q.
Proof. apply ends_step. reflexivity. Qed.
Lemma ends_modify B (f : ctx -> ctx) (k : recT -> unit -> M B) c Q : ends (fun r => k r tt) (f c) Q -> ends (fun r => bind (modify f) (k r)) c Q.
Proof. apply ends_step. reflexivity. Qed.
Lemma ends_same A (m m' : recT -> M A) c Q : (forall r, m r c = m' r c) -> ends m' c Q -> ends m c Q.
Proof. intros E (a & c1 & H & HQ). exists a, c1. split; [eapply ev_same; eauto|exact HQ]. Qed.
