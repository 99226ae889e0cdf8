(** * LiteralProof: proofs of C31, C32 *)
From Verif Require Import Base Float Ast Literal SpecLiteral.
From Coq Require Import Sorting.Sorted.

Lemma pow_split a b : 0 <= a -> 0 <= b -> 2 ^ (a + b) = 2 ^ a * 2 ^ b.
Proof. intros. now apply Z.pow_add_r. Qed.

(** scaled comparison does not depend on the common exponent *)
Lemma scale_eq x y e1 e2 E : E <= e1 -> E <= e2 ->
  (x * 2 ^ (e1 - E) = y * 2 ^ (e2 - E) <-> x * 2 ^ (e1 - Z.min e1 e2) = y * 2 ^ (e2 - Z.min e1 e2)).
Proof.
  intros H1 H2. set (M := Z.min e1 e2).
  assert (HM: E <= M) by (unfold M; lia).
  replace (e1 - E) with ((e1 - M) + (M - E)) by lia. replace (e2 - E) with ((e2 - M) + (M - E)) by lia.
  rewrite !pow_split by (unfold M; lia).
  assert (0 < 2 ^ (M - E)) by (apply Z.pow_pos_nonneg; lia).
  split; intros HH; nia.
Qed.

Definition sgn (n : bool) (m : Z) : Z := if n then - m else m.

Lemma same_key_eqb a b : lv_eqb a b = same_key a b.
Proof. destruct a as [| | |f| | | |], b as [| | |g| | | |]; try reflexivity; try (destruct f; reflexivity); try (destruct g; reflexivity).
Qed.

Lemma same_key_refl a : may_be_key a -> same_key a a = true.
Proof.
  destruct a; cbn; try tauto; intros _; try reflexivity.
  - now destruct b.
  - apply Z.eqb_refl.
  - destruct f; [apply Z.eqb_refl|now destruct neg].
  - apply str_eqb_refl.
Qed.
Lemma same_key_sym a b : same_key a b = same_key b a.
Proof.
  destruct a as [|x|x|f|s| | |], b as [|y|y|g|t| | |]; cbn [same_key]; try reflexivity; try (destruct f; reflexivity); try (destruct g; reflexivity).
  - now destruct x, y.
  - apply Z.eqb_sym.
  - destruct f as [n1 m1 e1|n1], g as [n2 m2 e2|n2]; try reflexivity; [|now destruct n1, n2].
    rewrite Z.eqb_sym, (Z.min_comm e1 e2). reflexivity.
  - destruct (str_eqb_spec s t), (str_eqb_spec t s); congruence.
Qed.
Lemma same_key_trans a b c : same_key a b = true -> same_key b c = true -> same_key a c = true.
Proof.
  destruct a as [|x|x|f|s| | |], b as [|y|y|g|t| | |]; cbn [same_key]; try discriminate; try (destruct f; discriminate);
    destruct c as [|z|z|h|u| | |]; cbn [same_key]; try discriminate; try congruence;
    try (destruct f, g; discriminate).
  - destruct x, y, z; cbn; congruence.
  - rewrite !Z.eqb_eq. congruence.
  - destruct f as [n m e|n], g as [n0 m0 e0|n0]; try discriminate; destruct h as [n1 m1 e1|n1]; try discriminate.
    + rewrite !Z.eqb_eq. fold (sgn n m) (sgn n0 m0) (sgn n1 m1).
      set (E := Z.min e (Z.min e0 e1)).
      rewrite <- (@scale_eq _ _ e e0 E), <- (@scale_eq _ _ e0 e1 E), <- (@scale_eq _ _ e e1 E) by (unfold E; lia).
      congruence.
    + destruct n, n0, n1; cbn; congruence.
  - destruct (str_eqb_spec s t), (str_eqb_spec t u), (str_eqb_spec s u); congruence.
Qed.
Lemma same_key_cong a b c : same_key a b = true -> same_key a c = same_key b c.
Proof.
  intros H. destruct (same_key a c) eqn:E1, (same_key b c) eqn:E2; try reflexivity.
  - rewrite same_key_sym in H. rewrite (same_key_trans H E1) in E2. discriminate.
  - rewrite (same_key_trans H E2) in E1. discriminate.
Qed.

Lemma last_of_snoc pairs k v x : last_of (pairs ++ [(k, v)]) x = if same_key x k then v else last_of pairs x.
Proof. unfold last_of. now rewrite fold_left_app. Qed.
Lemma firsts_snoc ks k : firsts (ks ++ [k]) =
  if existsb (same_key k) ks then firsts ks else firsts ks ++ [k].
Proof.
  induction ks as [|a ks IH]; [reflexivity|]. cbn [app firsts existsb]. rewrite IH.
  rewrite (same_key_sym k a).
  destruct (same_key a k) eqn:E; cbn [orb].
  - destruct (existsb (same_key k) ks); [reflexivity|].
    rewrite filter_app. cbn [filter]. rewrite E. cbn. now rewrite app_nil_r.
  - destruct (existsb (same_key k) ks); [reflexivity|].
    rewrite filter_app. cbn [filter]. rewrite E. reflexivity.
Qed.
Lemma firsts_exists ks k : existsb (same_key k) (firsts ks) = existsb (same_key k) ks.
Proof.
  induction ks as [|a ks IH]; [reflexivity|]. cbn [firsts existsb]. rewrite <- IH.
  destruct (same_key k a) eqn:E; [reflexivity|]. cbn [orb].
  clear IH. generalize (firsts ks) as l. induction l as [|b l IHl]; [reflexivity|].
  cbn [filter existsb]. destruct (same_key a b) eqn:E2; cbn [negb].
  - rewrite IHl. destruct (same_key k b) eqn:E3; [|reflexivity].
    rewrite same_key_sym in E2. rewrite (same_key_trans E3 E2) in E. discriminate.
  - cbn [existsb]. now rewrite IHl.
Qed.
Lemma firsts_apart ks : StronglySorted (fun a b => same_key a b = false) (firsts ks).
Proof.
  induction ks as [|a ks IH]; [constructor|]. cbn [firsts]. constructor.
  - induction IH as [|b l HS IHl HF]; [constructor|]. cbn [filter]. destruct (same_key a b); cbn [negb]; [exact IHl|].
    constructor; [exact IHl|]. rewrite Forall_forall in *. intros x Hx. apply filter_In in Hx. apply HF, Hx.
  - apply Forall_forall. intros x Hx. apply filter_In in Hx. now apply Bool.negb_true_iff, Hx.
Qed.

(** storing one more pair *)
Lemma map_of_snoc pairs k v : may_be_key k -> map_of (pairs ++ [(k, v)]) = map_set (map_of pairs) k v.
Proof.
  intros Hk. apply same_key_refl in Hk.
  unfold map_of. rewrite map_app. cbn [map fst]. rewrite firsts_snoc, <- firsts_exists.
  pose proof (firsts_apart (map fst pairs)) as HS. revert HS.
  generalize (firsts (map fst pairs)) as l. intros l HS.
  induction HS as [|a l HS IH HF]; cbn [existsb app map map_set].
  - now rewrite last_of_snoc, Hk.
  - rewrite same_key_eqb. destruct (same_key k a) eqn:E; cbn [orb map].
    + rewrite last_of_snoc, (same_key_sym a k), E. f_equal.
      apply map_ext_in. intros b Hb. rewrite last_of_snoc.
      rewrite Forall_forall in HF. specialize (HF b Hb).
      destruct (same_key b k) eqn:E2; [|reflexivity].
      rewrite same_key_sym in HF. rewrite (same_key_trans E2 E) in HF. discriminate.
    + rewrite <- IH. destruct (existsb (same_key k) l); cbn [app map];
        rewrite last_of_snoc, (same_key_sym a k), E; reflexivity.
Qed.

Lemma hashable_key v : hashable v = true <-> may_be_key v.
Proof. destruct v; cbn; intuition congruence. Qed.

Definition entry_res (x : expr) : option (lres * lres) :=
  match x with EKeyed _ k v => Some (toLiteral k, toLiteral v) | _ => None end.

Lemma lit_entries_sound es : forall pairs0 v,
  (forall q k w, In (EKeyed q k w) es -> (forall u, toLiteral k = LOk u -> denotes k u) /\ (forall u, toLiteral w = LOk u -> denotes w u)) ->
  Forall (fun kv => may_be_key (fst kv)) pairs0 ->
  lit_entries (map_of pairs0) (map entry_res es) = LOk v ->
  exists pairs, denotes_entries es pairs /\ Forall (fun kv => may_be_key (fst kv)) (pairs0 ++ pairs) /\ v = LvMap (map_of (pairs0 ++ pairs)).
Proof.
  induction es as [|x es IH]; intros pairs0 v Hes Hok H.
  - cbn in H. injection H as <-. exists []. rewrite app_nil_r. repeat split; [constructor|assumption].
  - cbn [map lit_entries] in H. destruct (entry_res x) as [[[ku| |] [vu| |]]|] eqn:E; try discriminate.
    destruct x; try discriminate. cbn in E. injection E as Ek Ev.
    destruct (hashable ku) eqn:EH; [|discriminate]. apply hashable_key in EH.
    rewrite <- map_of_snoc in H by exact EH.
    destruct (IH (pairs0 ++ [(ku, vu)]) v) as (pairs & HD & HO & HV); [| |exact H|].
    + intros q k' w Hin. apply (Hes q). now right.
    + apply Forall_app. split; [assumption|]. constructor; [exact EH|constructor].
    + exists ((ku, vu) :: pairs). rewrite <- app_assoc in HO, HV. cbn in HO, HV.
      destruct (Hes p x1 x2) as [H1 H2]; [now left|].
      repeat split; [constructor; auto|exact HO|exact HV].
Qed.

Lemma lit_entries_complete es pairs : 
  (forall q k w, In (EKeyed q k w) es -> (forall u, denotes k u -> toLiteral k = LOk u) /\ (forall u, denotes w u -> toLiteral w = LOk u)) ->
  denotes_entries es pairs -> forall pairs0, Forall (fun kv => may_be_key (fst kv)) pairs ->
  lit_entries (map_of pairs0) (map entry_res es) = LOk (LvMap (map_of (pairs0 ++ pairs))).
Proof.
  intros Hes HD. induction HD as [|p ke ve es k v pairs Hk Hv HD IH]; intros pairs0 Hok.
  - cbn. now rewrite app_nil_r.
  - cbn [map entry_res lit_entries]. destruct (Hes p ke ve) as [H1 H2]; [now left|].
    rewrite (H1 _ Hk), (H2 _ Hv). inversion Hok as [|? ? Hk1 Hk2]; subst. cbn in Hk1.
    rewrite (proj2 (hashable_key k) Hk1). rewrite <- map_of_snoc by exact Hk1.
    rewrite IH; [|intros q k' w Hin; apply (Hes q); now right|exact Hk2].
    now rewrite <- app_assoc.
Qed.

Lemma lit_list_sound es vs :
  (forall e, In e es -> forall u, toLiteral e = LOk u -> denotes e u) ->
  lit_list (map toLiteral es) = inl vs -> Forall2 denotes es vs.
Proof.
  revert vs. induction es as [|e es IH]; intros vs Hes H.
  - cbn in H. injection H as <-. constructor.
  - cbn [map lit_list] in H. destruct (toLiteral e) eqn:E; try discriminate.
    destruct (lit_list (map toLiteral es)) eqn:E2; try discriminate. injection H as <-.
    constructor; [apply Hes; [now left|exact E]|apply IH; [|reflexivity]]. intros x Hx. apply Hes. now right.
Qed.
Lemma lit_list_complete es vs :
  (forall e, In e es -> forall u, denotes e u -> toLiteral e = LOk u) ->
  Forall2 denotes es vs -> lit_list (map toLiteral es) = inl vs.
Proof.
  intros Hes HF. induction HF as [|e v es vs Hd HF IH]; [reflexivity|].
  cbn [map lit_list]. rewrite (Hes e (or_introl eq_refl) _ Hd), IH; [reflexivity|].
  intros x Hx. apply Hes. now right.
Qed.
Lemma lit_list_res es x : lit_list (map toLiteral es) = inr x -> x <> LPanic -> x = LNot.
Proof.
  revert x. induction es as [|e es IH]; intros x H Hx; [discriminate|].
  cbn [map lit_list] in H. destruct (toLiteral e) eqn:E.
  - destruct (lit_list (map toLiteral es)) eqn:E2; [discriminate|]. injection H as <-. now apply IH.
  - congruence.
  - congruence.
Qed.

(** strong induction: a tree and the keys and values of its entries *)
Lemma height_ind (P : expr -> Prop) :
  (forall e, (forall c, (height c < height e)%nat -> P c) -> P e) -> forall e, P e.
Proof.
  intros H e. enough (forall n e, (height e < n)%nat -> P e) by eauto.
  clear e. intros n; induction n as [|n IH]; intros e Hn; [lia|].
  apply H. intros c Hc. apply IH. lia.
Qed.
Lemma entry_height p es q k v : In (EKeyed q k v) es ->
  (height k < height (EHash p es))%nat /\ (height v < height (EHash p es))%nat.
Proof.
  intros H. assert (H1: In (EKeyed q k v) (children (EHash p es))) by exact H. apply child_height in H1.
  assert (H2: In k (children (EKeyed q k v))) by (cbn; auto). apply child_height in H2.
  assert (H3: In v (children (EKeyed q k v))) by (cbn; auto). apply child_height in H3. lia.
Qed.

Theorem toLiteral_sound e : forall v, toLiteral e = LOk v -> denotes e v.
Proof.
  induction e as [e IH] using height_ind. intros v H.
  destruct e; cbn [toLiteral literal_value] in H; try discriminate;
    try (injection H as <-; constructor).
  - destruct segments as [|[] [|? ?]]; try discriminate. injection H as <-. constructor.
  - constructor. apply IH; [|exact H]. apply child_height. cbn. auto.
  - change (lit_entries (map_of []) (map entry_res entries) = LOk v) in H.
    destruct (@lit_entries_sound entries [] v) as (pairs & HD & HO & ->); [|constructor|exact H|].
    + intros q k w Hin. destruct (@entry_height p entries q k w Hin). split; intros u Hu; apply IH; assumption.
    + constructor; assumption.
  - destruct (lit_list (map toLiteral elements)) as [vs|x] eqn:E.
    + injection H as <-. constructor. apply lit_list_sound; [|exact E].
      intros e He u Hu. apply IH; [|exact Hu]. now apply child_height.
    + subst x. assert (HN: LOk v <> LPanic) by discriminate. pose proof (lit_list_res E HN). discriminate.
  - constructor. apply IH; [|exact H]. apply child_height. cbn. auto.
Qed.

Theorem toLiteral_complete e : forall v, denotes e v -> toLiteral e = LOk v.
Proof.
  induction e as [e IH] using height_ind. intros v H.
  destruct H; cbn [toLiteral literal_value]; try reflexivity.
  - apply IH; [|assumption]. apply child_height. cbn. auto.
  - apply IH; [|assumption]. apply child_height. cbn. auto.
  - rewrite (@lit_list_complete es vs); [reflexivity| |assumption].
    intros e He u Hu. apply IH; [|exact Hu]. now apply child_height.
  - change (lit_entries (map_of []) (map entry_res es) = LOk (LvMap (map_of ([] ++ pairs)))).
    apply lit_entries_complete; try assumption.
    intros q k w Hin. destruct (@entry_height p es q k w Hin). split; intros u Hu; apply IH; assumption.
Qed.

(** C32 *)
Lemma lit_entries_panic es : forall m, lit_entries m (map entry_res es) = LPanic ->
  exists x, In x es /\
    ((forall q k v, x <> EKeyed q k v)
     \/ exists q k v, x = EKeyed q k v /\
         (toLiteral k = LPanic \/ toLiteral v = LPanic
          \/ exists kv, toLiteral k = LOk kv /\ ~ may_be_key kv)).
Proof.
  induction es as [|x es IH]; intros m H; [discriminate|].
  cbn [map lit_entries] in H. destruct (entry_res x) as [[rk rv]|] eqn:E.
  - destruct x; try discriminate. cbn in E. injection E as Ek Ev.
    assert (Hd: (rk = LPanic \/ rv = LPanic \/ exists kv, rk = LOk kv /\ ~ may_be_key kv)
                \/ exists m', lit_entries m' (map entry_res es) = LPanic).
    { destruct rk as [k| |]; [|discriminate|auto]. destruct rv as [v| |]; [|discriminate|auto].
      destruct (hashable k) eqn:EH; [right; eauto|]. left; right; right. exists k. split; [reflexivity|].
      rewrite <- hashable_key. congruence. }
    destruct Hd as [Hd|(m' & Hd)].
    + exists (EKeyed p x1 x2). split; [now left|]. right. exists p, x1, x2. split; [reflexivity|].
      rewrite Ek, Ev. exact Hd.
    + destruct (IH m' Hd) as (y & Hy & HP). exists y. split; [now right|exact HP].
  - exists x. split; [now left|]. left. intros q k v ->. discriminate.
Qed.
Lemma lit_list_panic es : lit_list (map toLiteral es) = inr LPanic -> exists e, In e es /\ toLiteral e = LPanic.
Proof.
  induction es as [|e es IH]; intros H; [discriminate|].
  cbn [map lit_list] in H. destruct (toLiteral e) eqn:E; try discriminate.
  - destruct (lit_list (map toLiteral es)) eqn:E2; [discriminate|].
    destruct IH as (x & Hx & Hp); [congruence|]. exists x. split; [now right|exact Hp].
  - exists e. split; [now left|exact E].
Qed.
Theorem toLiteral_panic e : toLiteral e = LPanic -> exists x, within x e /\ bad_hash x.
Proof.
  induction e as [e IH] using height_ind. intros H.
  destruct e; cbn [toLiteral literal_value] in H; try discriminate.
  - destruct segments as [|[] [|? ?]]; discriminate.
  - destruct (IH e) as (x & Hx & Hb); [apply child_height; cbn; auto|exact H|].
    exists x. split; [now constructor|exact Hb].
  - change (lit_entries [] (map entry_res entries) = LPanic) in H.
    apply lit_entries_panic in H. destruct H as (x & Hin & [Hno|(q & k & v & -> & [HP|[HP|(kv & Hk & HN)]])]).
    + exists (EHash p entries). split; [constructor|]. exists p, entries, x. auto.
    + destruct (@entry_height p entries q k v Hin) as [H1 H2].
      destruct (IH k H1 HP) as (y & Hy & Hb). exists y. split; [now apply within_key with q k v|exact Hb].
    + destruct (@entry_height p entries q k v Hin) as [H1 H2].
      destruct (IH v H2 HP) as (y & Hy & Hb). exists y. split; [now apply within_value with q k v|exact Hb].
    + exists (EHash p entries). split; [constructor|]. exists p, entries, (EKeyed q k v). repeat split; auto.
      right. exists q, k, v, kv. repeat split; auto. now apply toLiteral_sound.
  - destruct (lit_list (map toLiteral elements)) as [vs|x] eqn:E; [discriminate|]. subst x.
    apply lit_list_panic in E. destruct E as (e & He & HP).
    destruct (IH e) as (x & Hx & Hb); [now apply child_height|exact HP|].
    exists x. split; [now apply within_list with e|exact Hb].
  - destruct (IH e) as (x & Hx & Hb); [apply child_height; cbn; auto|exact H|].
    exists x. split; [now constructor|exact Hb].
Qed.
