(** * GrammarSpace: the grammar does not depend on what is between the tokens *)
From Verif Require Import Base Float Tokens Ast Ctx SpecLex SpecGrammar SpecManifest.

Lemma same_is t k k' : respaced_tk k k' -> is t k -> is t k'.
Proof. intros (E & _) H. unfold is in *. congruence. Qed.
Lemma same_word w t k k' : respaced_tk k k' -> word w t k -> word w t k'.
Proof. intros (E & E1 & _) [H H1]. unfold word, is in *. split; congruence. Qed.
Lemma same_paren k k' : respaced_tk k k' -> paren k -> paren k'.
Proof. intros (E & _) H. unfold paren in *. rewrite <- E. exact H. Qed.
Lemma same_name k k' n : respaced_tk k k' -> defined_name k n -> defined_name k' n.
Proof. intros (E & E1 & _) [H H1]. unfold defined_name. rewrite <- E, <- E1. auto. Qed.
Lemma same_attr k k' n : respaced_tk k k' -> attribute_name k n -> attribute_name k' n.
Proof. intros (E & E1 & _) H. unfold attribute_name in *. rewrite <- E, <- E1. exact H. Qed.
Lemma same_style k k' s : respaced_tk k k' -> style_word k s -> style_word k' s.
Proof. intros (E & E1 & _) (w & HI & H & H1). exists w. split; [exact HI|]. split; congruence. Qed.
Lemma same_stops n k k' : respaced_tk k k' -> stops n (k_tok k) -> stops n (k_tok k').
Proof. intros (E & _) H. congruence. Qed.
Lemma same_val k k' v : respaced_tk k k' -> k_val k = v -> k_val k' = v.
Proof. intros (_ & E & _) H. congruence. Qed.
Lemma same_txt k k' v : respaced_tk k k' -> k_txt k = v -> k_txt k' = v.
Proof. intros (_ & _ & _ & E & _) H. congruence. Qed.
Lemma same_digit k k' : respaced_tk k k' -> digit (first_byte (k_txt k)) -> digit (first_byte (k_txt k')).
Proof. intros (_ & _ & _ & E & _) H. congruence. Qed.
Lemma same_nodigit k k' : respaced_tk k k' -> ~ digit (first_byte (k_txt k)) -> ~ digit (first_byte (k_txt k')).
Proof. intros (_ & _ & _ & E & _) H. congruence. Qed.
Lemma same_gap k k' : respaced_tk k k' -> digit (first_byte (k_txt k)) -> k_gap k = [] -> k_gap k' = [].
Proof. intros (_ & _ & _ & _ & E) H. now apply E. Qed.
Lemma same_negate k k' v : respaced_tk k k' -> respaced_tk (negate k v) (negate k' v).
Proof. intros (E1 & E2 & E3 & E4 & E5). unfold respaced_tk, negate. cbn. auto. Qed.
Lemma same_starts t ts ts' : respaced ts ts' -> ~ starts t ts -> ~ starts t ts'.
Proof. intros [|k k' l l' (E & _) _] H; [exact H|]. unfold starts, is in *. congruence. Qed.
Lemma same_apart n ts ts' : respaced ts ts' -> apart n ts -> apart n ts'.
Proof. intros [|k k' l l' (E & _) _] H; [exact H|]. cbn [apart] in *. congruence. Qed.
Lemma same_rest (rest rest' : list tk) : respaced rest rest' -> (rest = [] \/ exists s, rest = [s] /\ is TMultiply s) -> (rest' = [] \/ exists s, rest' = [s] /\ is TMultiply s).
Proof. intros H [->|(s & -> & H1)]; inversion H; subst; [now left|]. inversion H5; subst. right. eexists. split; [reflexivity|]. eapply same_is; eauto. Qed.
Lemma same_restb (rest rest' : list tk) : respaced rest rest' -> match rest with [] => false | _ => true end = match rest' with [] => false | _ => true end.
Proof. now intros [|]. Qed.
Lemma same_tok k k' (P : tok -> Prop) : respaced_tk k k' -> P (k_tok k) -> P (k_tok k').
Proof. intros (E & _) H. congruence. Qed.
Ltac pieces := repeat match goal with
  | H : respaced (_ :: _) ?l |- _ => let E := fresh "R" in inversion H as [|? ? ? ? E ?]; subst; clear H
  | H : Forall2 respaced_tk (_ :: _) ?l |- _ => let E := fresh "R" in inversion H as [|? ? ? ? E ?]; subst; clear H
  | H : respaced [] ?l |- _ => inversion H; subst; clear H
  | H : Forall2 respaced_tk [] ?l |- _ => inversion H; subst; clear H
  | H : respaced (_ ++ _) ?l |- _ => let A := fresh "R" in let B := fresh "R" in apply Forall2_app_inv_l in H; destruct H as (? & ? & A & B & ->)
  | H : Forall2 respaced_tk (_ ++ _) ?l |- _ => let A := fresh "R" in let B := fresh "R" in apply Forall2_app_inv_l in H; destruct H as (? & ? & A & B & ->)
  end.
Create HintDb sp.
#[export] Hint Resolve same_is same_word same_paren same_name same_attr same_style same_stops same_val same_txt same_digit same_nodigit same_gap same_negate same_starts same_apart same_rest : sp.
Ltac simp := match goal with
  | R : respaced_tk ?k ?k' |- is _ ?k' => eapply (same_is R)
  | R : respaced_tk ?k ?k' |- word _ _ ?k' => eapply (same_word R)
  | R : respaced_tk ?k ?k' |- paren ?k' => eapply (same_paren R)
  | R : respaced_tk ?k ?k' |- defined_name ?k' _ => eapply (same_name R)
  | R : respaced_tk ?k ?k' |- attribute_name ?k' _ => eapply (same_attr R)
  | R : respaced_tk ?k ?k' |- k_gap ?k' = [] => eapply (same_gap R)
  | R : respaced_tk ?k ?k' |- context [k_tok ?k'] => rewrite <- (proj1 R)
  | R : respaced_tk ?k ?k' |- context [k_val ?k'] => rewrite <- (proj1 (proj2 R))
  | R : respaced_tk ?k ?k' |- context [k_radix ?k'] => rewrite <- (proj1 (proj2 (proj2 R)))
  | R : respaced_tk ?k ?k' |- context [k_txt ?k'] => rewrite <- (proj1 (proj2 (proj2 (proj2 R))))
  end.
Theorem D_respaced wf ns n ts es : D wf ns n ts es -> forall ts', respaced ts ts' -> D wf ns n ts' es.
Proof.
  intros H. induction H; intros ts' HR; pieces;
  repeat match goal with IH : forall ts', respaced ?t ts' -> D _ _ _ ts' _, R : respaced ?t _ |- _ => specialize (IH _ R)
    | IH : forall ts', respaced ?t ts' -> D _ _ _ ts' _, R : Forall2 respaced_tk ?t _ |- _ => specialize (IH _ R)
    | IH : forall ts', respaced (?k :: ?t) ts' -> D _ _ _ ts' _, R : respaced_tk ?k _, R2 : Forall2 respaced_tk ?t _ |- _ => specialize (IH _ (Forall2_cons _ _ R R2)) 
    | IH : forall ts', respaced (negate ?k ?v :: ?t) ts' -> D _ _ _ ts' _, R : respaced_tk ?k _, R2 : Forall2 respaced_tk ?t _ |- _ => specialize (IH _ (Forall2_cons _ _ (same_negate v R) R2)) end.
  all: try (econstructor; eauto with sp; fail).
  all: try match goal with R : respaced_tk ?k ?y |- D _ _ _ [?y] [EInt z (k_radix ?k) _] => rewrite (proj1 (proj2 (proj2 R))) end.
  all: try match goal with R : Forall2 respaced_tk ?r ?x |- context [EParam z _ _ _ (match ?r with [] => _ | _ => _ end)] => rewrite (same_restb R) end.
  all: try (econstructor; eauto with sp; unfold is, word in *; repeat simp; try assumption; fail).
  { eapply a_subclass; try (eauto with sp; fail). destruct H3 as [H3|[H3 ->]]; [left|right]; eauto with sp. }
  { eapply it_some; try (eauto with sp; fail). destruct H as [[-> ->]|(v & a & -> & Hv & Hw & Ha)]; [inversion R; subst; left; auto|]. inversion R as [|? va ? la Ra Rb]; subst. inversion Rb as [|? vb ? lb Rc Rd]; subst. inversion Rd; subst. right. exists va, vb. repeat split; eauto with sp. }
Qed.
