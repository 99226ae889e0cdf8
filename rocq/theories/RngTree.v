(** * RngTree: the transformations of trees keep nodes in range *)
From Verif Require Import Base Float Tokens Ast Ctx Locator Lexer Parser Wp RngBase RngSpec.
From Verif Require PosTop.
From Coq Require Import Lia ZifyBool.

Ltac zn := unfold spanned, eend, byteOffset, byteLength in *; cbn [epos p_off p_len] in *; lia.
Lemma owithin_list lo hi x : owithin lo hi x -> Forall (within lo hi) (opt_list x).
Proof. destruct x; cbn; [intros; constructor; [assumption|constructor]|constructor]. Qed.
Lemma owithin_mono lo hi lo' hi' x : owithin lo hi x -> lo' <= lo -> hi <= hi' -> owithin lo' hi' x.
Proof. destruct x; cbn; [|auto]. intros. eapply within_mono; eauto. Qed.

Lemma set_pos_within lo hi p e : within lo hi e -> lo <= p_off p -> 0 <= p_len p -> p_off p + p_len p <= hi -> within lo hi (set_pos p e) /\ eend (set_pos p e) = p_off p + p_len p.
Proof.
  intros H H1 H2 H3. pose proof (within_children H) as HC.
  split; [apply within_node; destruct e; cbn [set_pos]; first [exact HC|zn]|destruct e; reflexivity].
Qed.
Lemma set_rval_within lo hi b e : within lo hi e -> within lo hi (set_rval b e).
Proof. intros H. destruct e; try exact H. apply within_node; [exact (within_span H)|exact (within_children H)]. Qed.
Lemma lhs_within lo hi : forall n e args l p, (height e < n)%nat -> within lo hi e -> Forall (within lo hi) args -> owithin lo hi l ->
  lo <= p_off p -> 0 <= p_len p -> p_off p + p_len p <= hi -> within lo hi (convertLhsToCall e args l p).
Proof.
  induction n as [|n IH]; intros e args l p Hn He Ha Hl H1 H2 H3; [lia|].
  destruct e; try exact He. destruct k; try exact He. cbn [convertLhsToCall].
  pose proof (within_children He) as HC. cbn [children] in HC. inversion HC as [|x1 l1 HC1 HC2]; subst.
  pose proof (@child_height (EBin p0 KNamedAccess op e1 e2) e1 (or_introl eq_refl)) as Hh.
  apply within_node; [zn|]. cbn [children]. constructor; [|apply Forall_app; split; [assumption|now apply owithin_list]].
  apply within_node; [exact (within_span He)|]. cbn [children]. constructor; [|exact HC2].
  destruct e1; try exact HC1. destruct k; try exact HC1.
  pose proof (within_span HC1). apply IH; [lia|exact HC1|constructor|exact Logic.I|zn|zn|zn].
Qed.
Lemma lhs_end e args l p : match e with EBin _ KNamedAccess _ _ _ => eend (convertLhsToCall e args l p) = p_off p + p_len p | _ => True end.
Proof. destruct e; try exact Logic.I. destruct k; try exact Logic.I. reflexivity. Qed.

Lemma chain_app lo hi a b : chain lo hi (a ++ b) -> chain lo hi a /\ chain lo hi b.
Proof.
  induction a as [|x a IH]; cbn [app chain]; [auto|]. intros (H1 & H2 & H3). apply Forall_app in H2. destruct (IH H3). tauto.
Qed.
Lemma last_in A (d : A) l : l = [] \/ In (last l d) l.
Proof. induction l as [|x [|y l] IH]; [auto| |]; right; [left; reflexivity|]. destruct IH as [IH|IH]; [discriminate|]. right. exact IH. Qed.
Lemma chain_hash lo hi l : 0 <= lo -> l <> [] -> chain lo hi l -> within lo hi (newHashWithoutBraces l).
Proof.
  intros Hlo N H. destruct l as [|f l]; [congruence|]. pose proof (chain_within H) as HW. apply within_node; [|exact HW].
  cbn [chain] in H. destruct H as (H1 & H2 & H3). unfold newHashWithoutBraces.
  assert (E : eend f <= eend (last (f :: l) f) /\ within lo hi (last (f :: l) f)).
  { cbn [last]. destruct l as [|g l]; [split; [lia|exact H1]|]. destruct (@last_in _ f (g :: l)) as [E|E]; [discriminate|].
    change (match g :: l with [] => f | _ :: _ => last (g :: l) f end) with (last (g :: l) f). rewrite Forall_forall in H2, HW. split; [auto|apply HW; right; exact E]. }
  destruct E as [E1 E2]. pose proof (within_span E2). pose proof (within_span H1). zn.
Qed.
Lemma hashes_within lo hi : 0 <= lo -> forall es coll, chain lo hi (coll ++ es) -> Forall (within lo hi) (processHashEntries coll es).
Proof.
  intros Hlo. induction es as [|e es IH]; intros coll H; cbn [processHashEntries].
  - rewrite app_nil_r in H. destruct coll; constructor; [apply chain_hash; [assumption|discriminate|assumption]|constructor].
  - destruct (isKeyedEntry e); [apply IH; rewrite <- app_assoc; exact H|]. apply chain_app in H. destruct H as [H1 H2]. cbn [chain] in H2. destruct H2 as (H2 & H3 & H4).
    apply Forall_app. split; [|constructor; [assumption|apply IH; exact H4]].
    destruct coll; constructor; [apply chain_hash; [assumption|discriminate|assumption]|constructor].
Qed.
Lemma join_within lo hi es : 0 <= lo -> chain lo hi es -> Forall (within lo hi) (joinHashEntries es).
Proof. intros Hlo H. unfold joinHashEntries. destruct (existsb _ _); [apply hashes_within; assumption|apply chain_within; exact H]. Qed.

Lemma transform_within lo hi : forall n es memo r b, (List.length es < n)%nat -> chain lo hi (memo :: es) -> transform_from memo es = (r, b) -> Forall (within lo hi) r.
Proof.
  induction n as [|n IH]; intros es memo r b Hn H E; [lia|]. destruct es as [|e es]; cbn [transform_from] in E.
  - injection E as <- <-. cbn [chain] in H. constructor; [apply set_rval_within; tauto|constructor].
  - cbn [List.length] in Hn. pose proof H as HH. cbn [chain] in H. destruct H as (H1 & H2 & H3 & H4 & H5). inversion H2 as [|x1 l1 H6 H7]; subst.
    assert (GO : forall x, within lo hi x -> (let (r, b) := transform_from e es in (x :: r, b)) = (r, b) -> Forall (within lo hi) r).
    { intros x Hx X. destruct (transform_from e es) as [r' b'] eqn:K. injection X as <- <-. constructor; [exact Hx|]. eapply IH; [|split; [exact H3|split; [exact H4|exact H5]]|exact K]. lia. }
    destruct memo; try (eapply GO; [|exact E]; apply set_rval_within; exact H1).
    destruct (isStatementCall name); [|eapply GO; [|exact E]; exact H1].
    match type of E with context [ECallNamed ?pp _ _ ?args _] => assert (CN : within lo hi (ECallNamed pp false (EQName p name) args None)) end.
    { pose proof (within_span H1). pose proof (within_span H3). apply within_node; [zn|]. cbn [children]. constructor; [exact H1|]. apply Forall_app. split; [|constructor].
      assert (D: Forall (within lo hi) [set_rval true e]) by (constructor; [apply set_rval_within; exact H3|constructor]).
      destruct e; try exact D. exact (within_children H3). }
    destruct es as [|memo' es]; [injection E as <- <-; constructor; [exact CN|constructor]|].
    destruct (transform_from memo' es) as [r' b'] eqn:K. injection E as <- <-. constructor; [exact CN|]. eapply IH; [|exact H5|exact K]. cbn [List.length] in Hn. lia.
Qed.

Section Text.
Variable T : str.
Variable o : opts.
Notation Sr := (Sr T o). Notation wp := (wp Er).
Lemma commas_r p t s v c lo hi : Sr p t s v c -> 0 <= lo -> forall es, Forall (within lo hi) es -> wp (check_commas es) c (fun _ c' => c' = c).
Proof.
  intros HS Hlo. induction es as [|e es IH]; intros HF; cbn [check_commas]; [reflexivity|]. inversion HF as [|x1 l1 H1 H2]; subst.
  destruct e; try exact (IH H2). destruct elements as [|f l]; [exact Logic.I|]. cbv zeta.
  pose proof (within_children H1) as HC. cbn [children] in HC. inversion HC as [|x2 l2 H3 H4]; subst. pose proof (within_span H3) as H5.
  apply wp_bind. eapply r_text; [exact HS|]. apply wp_bind. 
  destruct (getLineIndex T) as [li|e] eqn:E.
  - destruct (@PosTop.can_locate T (byteOffset f + byteLength f) li E) as (l0 & k & -> & E2); [zn|].
    unfold of_sum at 1. apply wp_ret. rewrite E2. exact Logic.I.
  - unfold lineForOffset. rewrite E. exact Logic.I.
Qed.
Lemma transform_r p t s v c lo hi es (Q : list expr -> ctx -> Prop) : Sr p t s v c -> 0 <= lo -> chain lo hi es ->
  (forall l, Forall (within lo hi) l -> Q l c) -> wp (transformCalls es) c Q.
Proof.
  intros HS Hlo HC HQ. unfold transformCalls. destruct es as [|memo es]; [apply wp_ret, HQ; constructor|].
  destruct (transform_from memo es) as [r complete] eqn:K. pose proof (@transform_within lo hi _ es memo r complete (Nat.lt_succ_diag_r _) HC K) as HF.
  apply wp_bind. eapply wp_weaken with (Q := fun _ c' => c' = c).
  - destruct complete; [eapply commas_r; [exact HS|exact Hlo|exact HF]|apply wp_ret; reflexivity].
  - intros _ c' ->. apply wp_ret, HQ, HF.
Qed.
Lemma text_r lo hi q : spanned lo hi (EUndef q) -> 0 <= lo -> hi <= zlen T -> exists x, node_text T q = inl x.
Proof. intros H H1 H2. unfold node_text. destruct (_ && _ && _) eqn:E; [eauto|]. zn. Qed.
Lemma shape_r p t s v c lo hi e (Q : shape -> ctx -> Prop) : Sr p t s v c -> within lo hi e -> 0 <= lo -> hi <= zlen T ->
  (forall x, Q x c) -> wp (resourceShape e) c Q.
Proof.
  intros HS He Hlo Hhi HQ. unfold resourceShape. destruct e; try (apply wp_ret, HQ). destruct e; try (apply wp_ret, HQ).
  pose proof (within_children He) as HC. cbn [children] in HC. inversion HC as [|x2 l2 H3 H4]; subst. pose proof (within_span H3) as H5.
  apply wp_bind. eapply r_text; [exact HS|]. destruct (@text_r lo hi p1 H5 Hlo Hhi) as [x ->]. apply wp_bind. apply wp_ret. apply wp_ret, HQ.
Qed.
End Text.
