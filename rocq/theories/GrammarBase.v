(** * GrammarBase: walking through a token stream with the parser *)
From Verif Require Import Base Float Tokens Ast Ctx Locator Lexer Parser SpecLex LexCur Evals Ends SpecGrammar.
From Coq Require Import Lia ZifyBool.

Definition tok_of (ks : list tk) : tok := match ks with k :: _ => k_tok k | [] => TEnd end.
Lemma apart_tok n ks : apart n ks -> stops n (tok_of ks).
Proof. destruct ks; [intros _; exact Logic.I|exact (fun H => H)]. Qed.
Lemma apart_shown n ks m : apart n ks -> stops n (shown m (tok_of ks)).
Proof. intros H. apply apart_tok in H. destruct (tok_of ks); try exact H. cbn [shown]. destruct (embedded m); exact Logic.I. Qed.
Lemma shown_eqb m t b : b <> TRc -> b <> TEnd -> tok_eqb (shown m t) b = tok_eqb t b.
Proof. intros H1 H2. destruct t; try reflexivity. cbn [shown]. destruct (embedded m); destruct b; congruence || reflexivity. Qed.
Lemma stops_le n m t : stops n t -> (m <= n)%nat -> stops m t.
Proof. unfold stops. destruct (continues t); [lia|auto]. Qed.
Lemma apart_le n m ks : apart n ks -> (m <= n)%nat -> apart m ks.
Proof. destruct ks; [auto|apply stops_le]. Qed.

Section Walk.
Variables (o : opts) (m : mode).
Hypothesis Hfac : o_factory o = true.
Hypothesis Hm : lawful o m.
(** the state [c] is at the tokens [ks], inside [ns], and the definitions [ds] have
    been added since [c0] *)
Definition st (c0 : ctx) (ds : list expr) (ns : list str) (ks : list tk) (c : ctx) : Prop :=
  cur o m ns ks c /\ c_text c = c_text c0 /\ exists ds1, c_defs c = c_defs c0 ++ ds1 /\ map strip ds1 = ds.
Lemma st_tok c0 ds ns ks c : st c0 ds ns ks c -> c_tok c = shown m (tok_of ks).
Proof. intros ((p & H) & _). destruct ks; [destruct H|]. exact (proj1 (proj2 (proj2 H))). Qed.
(** values that are not trees *)
Definition flat (v : tval) : Prop := match v with VExpr _ => False | _ => True end.
Lemma st_val c0 ds ns k ks c : st c0 ds ns (k :: ks) c -> flat (k_val k) -> c_val c = k_val k.
Proof. intros ((p & H) & _). destruct H as (_ & _ & _ & Hv & _). unfold same_val in Hv. intros Hf. destruct (k_val k); try exact Hv. destruct Hf. Qed.
Lemma st_tree c0 ds ns k ks c e : st c0 ds ns (k :: ks) c -> k_val k = VExpr e -> exists e1, c_val c = VExpr e1 /\ strip e1 = e.
Proof. intros ((p & H) & _) E. destruct H as (_ & _ & _ & Hv & _). rewrite E in Hv. exact Hv. Qed.
Lemma st_radix c0 ds ns k ks c : st c0 ds ns (k :: ks) c -> k_tok k = TInteger -> c_radix c = k_radix k.
Proof. intros ((p & H) & _). exact (proj1 (proj2 (proj2 (proj2 (proj2 H))))). Qed.
Lemma st_names c0 ds ns ks c : st c0 ds ns ks c -> c_names c = ns.
Proof. intros ((p & H) & _). destruct ks; [destruct H|]. exact (proj1 (proj2 (proj2 (proj2 (proj2 (proj2 H)))))). Qed.
Lemma st_opts c0 ds ns ks c : st c0 ds ns ks c -> c_opts c = o.
Proof. intros ((p & H) & _). destruct ks; [destruct H|]. exact (proj1 H). Qed.
Lemma curp_more p ns k rest c : curp o m p ns (k :: rest) c -> k_tok k <> TEnd -> exists k2 r, rest = k2 :: r.
Proof.
  intros (_ & _ & _ & _ & _ & _ & HS & _) Hn. destruct rest as [|k2 r]; [|eauto]. cbn in HS. congruence.
Qed.
Lemma st_more c0 ds ns ks c : st c0 ds ns ks c -> exists k rest, ks = k :: rest.
Proof. intros ((p & H) & _). destruct ks; [destruct H|eauto]. Qed.
Lemma ends_nextp B (kk : recT -> unit -> M B) c0 ds ns k rest c Q : st c0 ds ns (k :: rest) c -> k_tok k <> TEnd ->
  (forall c1, st c0 ds ns rest c1 -> curp o m (Some (k_tok k)) ns rest c1 -> ends (fun r => kk r tt) c1 Q) -> ends (fun r => bind (r unit FNextToken) (kk r)) c Q.
Proof.
  intros ((p & H) & Ht & ds1 & Hd & Hs) Hn HK. destruct (curp_more H Hn) as (k2 & r & ->).
  destruct (@next_okp o m Hfac Hm p ns k k2 r c H) as (c1 & HE & HC & HD & HT & _).
  apply ends_bind. eapply ends_ev; [exact HE|]. apply HK; [|exact HC]. split; [eexists; exact HC|]. split; [congruence|]. exists ds1. split; [congruence|exact Hs].
Qed.
Lemma ends_next B (kk : recT -> unit -> M B) c0 ds ns k rest c Q : st c0 ds ns (k :: rest) c -> k_tok k <> TEnd ->
  (forall c1, st c0 ds ns rest c1 -> ends (fun r => kk r tt) c1 Q) -> ends (fun r => bind (r unit FNextToken) (kk r)) c Q.
Proof. intros H Hn HK. eapply ends_nextp; eauto. Qed.
Lemma ends_cur B (kk : recT -> tok -> M B) c0 ds ns ks c Q : st c0 ds ns ks c -> ends (fun r => kk r (shown m (tok_of ks))) c Q -> ends (fun r => bind curTok (kk r)) c Q.
Proof. intros H HE. eapply ends_step; [reflexivity|]. now rewrite (st_tok H). Qed.
Lemma ends_val B (kk : recT -> tval -> M B) c0 ds ns k ks c Q : st c0 ds ns (k :: ks) c -> flat (k_val k) -> ends (fun r => kk r (k_val k)) c Q -> ends (fun r => bind (ask c_val) (kk r)) c Q.
Proof. intros H Hf HE. eapply ends_step; [reflexivity|]. now rewrite (st_val H Hf). Qed.
Lemma ends_radix B (kk : recT -> Z -> M B) c0 ds ns k ks c Q : st c0 ds ns (k :: ks) c -> k_tok k = TInteger -> ends (fun r => kk r (k_radix k)) c Q -> ends (fun r => bind (ask c_radix) (kk r)) c Q.
Proof. intros H Ht HE. eapply ends_step; [reflexivity|]. now rewrite (st_radix H Ht). Qed.
Lemma ends_string B (kk : recT -> str -> M B) c0 ds ns k ks c s Q : st c0 ds ns (k :: ks) c -> k_val k = VStr s \/ k_val k = VNil /\ s = tokenMap (shown m (k_tok k)) ->
  ends (fun r => kk r s) c Q -> ends (fun r => bind tokenString (kk r)) c Q.
Proof.
  intros H Hs HE. eapply ends_step; [|exact HE]. unfold tokenString. unfold bind, ask. rewrite (st_val H) by (destruct Hs as [-> | [-> _]]; exact Logic.I). pose proof (st_tok H) as Ht. cbn [tok_of] in Ht.
  destruct Hs as [->|[-> ->]]; [reflexivity|]. cbv beta. rewrite Ht. reflexivity.
Qed.
Lemma ends_assert B (kk : recT -> unit -> M B) c0 ds ns ks c t Q : st c0 ds ns ks c -> shown m (tok_of ks) = t -> ends (fun r => kk r tt) c Q -> ends (fun r => bind (assertToken t) (kk r)) c Q.
Proof.
  intros H Ht HE. eapply ends_step; [|exact HE]. unfold assertToken, bind, curTok, ask. rewrite (st_tok H), Ht, tok_eqb_refl. reflexivity.
Qed.
(** a definition is recorded *)
Lemma ends_define c0 ds ns ks c e (Q : expr -> ctx -> Prop) : st c0 ds ns ks c ->
  (forall c1, st c0 (ds ++ [strip e]) ns ks c1 -> Q e c1) -> ends (fun _ => addDefinition e) c Q.
Proof.
  intros ((p & H) & Ht & ds1 & Hd & Hs) HQ. unfold addDefinition. apply (@ends_modify _ _ (fun _ _ => ret e)). apply ends_ret. apply HQ.
  split; [exists p; destruct ks as [|k r]; [exact H|]; destruct r; exact H|]. split; [exact Ht|]. exists (ds1 ++ [e]). cbn [with_defs c_defs]. rewrite Hd, map_app, Hs, app_assoc. auto.
Qed.
Lemma curp_names p ns ns' ks c : curp o m p ns ks c -> curp o m p ns' ks (with_names ns' c).
Proof.
  destruct ks as [|k r]; [auto|]. intros (H1 & H2 & H3 & H4 & H5 & H6 & H7). repeat (split; [assumption||reflexivity|]). destruct r; exact H7.
Qed.
Lemma ends_push B (kk : recT -> unit -> M B) n c0 ds ns ks c Q : st c0 ds ns ks c ->
  (forall c1, st c0 ds (ns ++ [n]) ks c1 -> ends (fun r => kk r tt) c1 Q) -> ends (fun r => bind (pushName n) (kk r)) c Q.
Proof.
  intros H HK. unfold pushName. apply ends_modify. apply HK. rewrite (st_names H). destruct H as ((p & H) & Ht & Hd).
  split; [exists p; eapply curp_names; exact H|]. split; [exact Ht|exact Hd].
Qed.
Lemma ends_pop B (kk : recT -> unit -> M B) n c0 ds ns ks c Q : st c0 ds (ns ++ [n]) ks c ->
  (forall c1, st c0 ds ns ks c1 -> ends (fun r => kk r tt) c1 Q) -> ends (fun r => bind popName (kk r)) c Q.
Proof.
  intros H HK. eapply (@ends_step _ _ popName _ _ tt (with_names (removelast (ns ++ [n])) c)).
  { unfold popName. rewrite (st_names H). destruct (ns ++ [n]) eqn:E; [destruct ns; discriminate|reflexivity]. }
  rewrite removelast_last.
  apply HK. destruct H as ((p & H) & Ht & Hd). split; [exists p; eapply curp_names; exact H|]. split; [exact Ht|exact Hd].
Qed.
Lemma ends_qualified B (kk : recT -> str -> M B) n c0 ds ns ks c Q : st c0 ds ns ks c ->
  ends (fun r => kk r (join (lit "::") (ns ++ [n]))) c Q -> ends (fun r => bind (qualifiedName n) (kk r)) c Q.
Proof. intros H HE. eapply ends_step; [reflexivity|]. now rewrite (st_names H). Qed.
(** joining two walks *)
Lemma st_app c0 ds c ds1 ns ks c1 : (exists ns0 ks0, st c0 ds ns0 ks0 c) -> st c ds1 ns ks c1 -> st c0 (ds ++ ds1) ns ks c1.
Proof.
  intros (ns0 & ks0 & _ & Ht & d & Hd & Hs) (H1 & Ht1 & d1 & Hd1 & Hs1). split; [exact H1|]. split; [congruence|]. exists (d ++ d1). rewrite Hd1, Hd, app_assoc, map_app, Hs, Hs1. auto.
Qed.
Lemma st_refl p ns ks c : curp o m p ns ks c -> st c [] ns ks c.
Proof. intros H. split; [eexists; exact H|]. split; [reflexivity|]. exists []. rewrite app_nil_r. auto. Qed.
End Walk.
