(** * OptSim: options that a source does not use do not change its reading *)
From Verif Require Import Base Utf8Facts Float Tokens Ast Ctx Locator Lexer Parser SpecOptions LexSim.
From Coq Require Import Lia ZifyBool.

Lemma rune_here b p c w : 0 < b < 128 -> rune_at p c = inl (b, w) -> exists x y, c_text c = x ++ b :: y /\ zlen x = p /\ w = 1.
Proof.
  intros Hb H. assert (Hd := H). unfold rune_at in H. destruct (len c <=? p) eqn:El; [injection H as <- _; lia|]. destruct (p <? 0) eqn:Ep; [discriminate|].
  pose proof (firstn_skipn (Z.to_nat p) (c_text c)) as HF. destruct (skipn (Z.to_nat p) (c_text c)) as [|x t] eqn:Es; [injection H as <- _; lia|].
  destruct (x <? 128) eqn:Ex.
  - injection H as -> <-. exists (firstn (Z.to_nat p) (c_text c)), t. split; [now symmetry|]. split; [|reflexivity]. unfold zlen. rewrite firstn_length. unfold len, zlen in El. lia.
  - exfalso. destruct (decode_rune (x :: t)) as [q v] eqn:Ed. destruct (q =? rune_error) eqn:Eq; [discriminate|]. injection H as -> <-.
    unfold decode_rune in Ed. rewrite Ex in Ed. unfold is_cont in Ed. change rune_error with 65533 in Ed. clear - Ex Ed Hb.
    repeat lazymatch type of Ed with
    | (65533, _) = _ => injection Ed as Ed _; lia
    | (if ?x then _ else _) = _ => destruct x eqn:?
    | (let _ := _ in _) = _ => cbv zeta in Ed
    | (match ?x with _ => _ end) = _ => destruct x
    end; injection Ed as Ed _; repeat match goal with E : context [if ?x then _ else _] |- _ => destruct x eqn:? end; lia.
Qed.
Lemma same_prefix (a b x y : str) : a ++ x = b ++ y -> List.length a = List.length b -> a = b.
Proof.
  revert b. induction a as [|z a IH]; intros [|w b] E L; try discriminate L; [reflexivity|]. cbn in E. injection E as -> E. f_equal. apply IH; [exact E|]. cbn in L. congruence.
Qed.
Lemma slice_contains t a b : contains (slice t a b) t.
Proof.
  unfold contains, slice. exists (firstn (Z.to_nat a) t), (skipn (Z.to_nat (b - a)) (skipn (Z.to_nat a) t)).
  rewrite firstn_skipn. symmetry. apply firstn_skipn.
Qed.
Lemma kw_plan w : kw_lookup w = Some TPlan -> w = lit "plan".
Proof.
  unfold kw_lookup, keywords. cbn [kw_find]. intros H.
  repeat lazymatch type of H with
  | (if str_eqb ?w ?l then _ else _) = _ => let E := fresh "E" in destruct (str_eqb w l) eqn:E; [first [discriminate H|apply str_eqb_eq in E; exact E]|]
  end. discriminate H.
Qed.

Section Sim.
Variables (T : str) (o o' : opts).
Hypothesis HI : idle o o' T.
Definition retag (c : ctx) : ctx :=
  mkctx (c_text c) o' (c_pos c) (c_nls c) (c_tok c) (c_bol c) (c_tsp c) (c_val c) (c_radix c) (c_names c) (c_defs c).
Definition harmless (s : str) : Prop := o_workflow o = o_workflow o' \/ workflowStyle s = None.
Definition name_ok (e : expr) : Prop := match e with EQName _ s => harmless s | _ => True end.
Definition quoted (t : tok) : bool := match t with TString | TRegexp | TRenderString => true | _ => false end.
Definition val_ok (t : tok) (v : tval) : Prop :=
  match v with VStr s => quoted t = true \/ harmless s | VExpr e => name_ok e | _ => True end.
Definition good (c : ctx) : Prop := c_text c = T /\ c_opts c = o /\ val_ok (c_tok c) (c_val c).
Definition re A (r : res A) : res A := match r with Ok a d => Ok a (retag d) | Err e d => Err e (retag d) | Fuel => Fuel end.
Definition inert A (P : ctx -> Prop) (m : M A) (Q : A -> ctx -> Prop) : Prop :=
  forall c, good c -> P c -> m (retag c) = re (m c) /\ match m c with Ok a d => good d /\ Q a d | _ => True end.
Definition any {A} (a : A) : Prop := True.
Definition free (c : ctx) : Prop := True.
Definition post A (Q : A -> Prop) (a : A) (c : ctx) : Prop := Q a.

Lemma contains_harmless s : contains s T -> harmless s.
Proof.
  intros H. destruct HI as (_ & _ & _ & _ & _ & _ & [E|(H1 & H2 & H3 & H4)]); [left; exact E|right]. unfold workflowStyle.
  destruct (str_eqb s (lit "action")) eqn:E1; [apply str_eqb_eq in E1 as ->; contradiction|].
  destruct (str_eqb s (lit "resource")) eqn:E2; [apply str_eqb_eq in E2 as ->; contradiction|].
  destruct (str_eqb s (lit "stateHandler")) eqn:E3; [apply str_eqb_eq in E3 as ->; contradiction|].
  destruct (str_eqb s (lit "workflow")) eqn:E4; [apply str_eqb_eq in E4 as ->; contradiction|]. reflexivity.
Qed.
Lemma map_harmless t : harmless (tokenMap t).
Proof. right. destruct t; reflexivity. Qed.

Lemma inert_bind A B (P : ctx -> Prop) (m : M A) R (k : A -> M B) Q : inert P m R -> (forall a, inert (R a) (k a) Q) -> inert P (bind m k) Q.
Proof.
  intros H HK c Hc HP. specialize (H c Hc HP) as [E H]. unfold bind. rewrite E. destruct (m c) as [a d|e d|]; cbn [re]; auto. destruct H as [Hd HR]. exact (HK a d Hd HR).
Qed.
Lemma inert_weak A (P P' : ctx -> Prop) (m : M A) (Q Q' : A -> ctx -> Prop) : inert P' m Q' -> (forall c, P c -> P' c) -> (forall a c, Q' a c -> Q a c) -> inert P m Q.
Proof. intros H H1 H2 c Hc HP. destruct (H c Hc (H1 c HP)) as [E K]. split; [exact E|]. destruct (m c); auto. destruct K. auto. Qed.
Lemma bind_any A B (P : ctx -> Prop) (m : M A) (k : A -> M B) Q : inert free m (post any) -> (forall a, inert free (k a) Q) -> inert P (bind m k) Q.
Proof. intros H HK. eapply inert_bind; [eapply inert_weak with (Q := fun _ _ => True); [exact H|exact (fun _ _ => Logic.I)|auto]|]. exact HK. Qed.
Lemma bind_post A B (P : ctx -> Prop) (m : M A) (R : A -> Prop) (k : A -> M B) Q : inert P m (post R) -> (forall a, R a -> inert free (k a) Q) -> inert P (bind m k) Q.
Proof. intros H HK. eapply inert_bind; [exact H|]. intros a c Hc HR. exact (HK a HR c Hc Logic.I). Qed.
Lemma inert_ret A (P : ctx -> Prop) (a : A) (Q : A -> ctx -> Prop) : (forall c, P c -> Q a c) -> inert P (ret a) Q.
Proof. intros H c Hc HP. split; [reflexivity|]. split; auto. Qed.
Lemma inert_throw A (P : ctx -> Prop) e (Q : A -> ctx -> Prop) : inert P (throw e) Q.
Proof. intros c Hc HP. split; [reflexivity|exact Logic.I]. Qed.
Lemma inert_issue2 A (P : ctx -> Prop) e a (Q : A -> ctx -> Prop) : inert P (issue2 e a) Q.
Proof. intros c Hc HP. split; [reflexivity|exact Logic.I]. Qed.
Lemma inert_fuel A (P : ctx -> Prop) (Q : A -> ctx -> Prop) : inert P out_of_fuel Q.
Proof. intros c Hc HP. split; [reflexivity|exact Logic.I]. Qed.
Lemma inert_ask A (P : ctx -> Prop) (f : ctx -> A) (Q : A -> ctx -> Prop) : (forall c, good c -> f (retag c) = f c) -> (forall c, P c -> Q (f c) c) -> inert P (ask f) Q.
Proof. intros H HQ c Hc HP. unfold ask. cbn [re]. rewrite (H c Hc). split; [reflexivity|]. auto. Qed.
Lemma bind_ask A B (P : ctx -> Prop) (f : ctx -> A) (k : A -> M B) Q : (forall c, good c -> f (retag c) = f c) -> (forall a, inert (fun c => P c /\ f c = a) (k a) Q) -> inert P (bind (ask f) k) Q.
Proof. intros H HK. eapply inert_bind; [apply inert_ask with (Q := fun a c => P c /\ f c = a); [exact H|auto]|exact HK]. Qed.
Lemma inert_modify (P : ctx -> Prop) f (Q : unit -> ctx -> Prop) : (forall c, good c -> P c -> f (retag c) = retag (f c) /\ good (f c) /\ Q tt (f c)) -> inert P (modify f) Q.
Proof. intros H c Hc HP. destruct (H c Hc HP) as (E & H1 & H2). unfold modify. rewrite E. split; [reflexivity|]. auto. Qed.
Lemma inert_loop A B n (b : A -> M (A + B)) : (forall a, inert free (b a) (post any)) -> forall a P, inert P (loop n b a) (post any).
Proof.
  intros H. induction n as [|n IH]; intros a P; [apply inert_fuel|]. cbn [loop]. eapply bind_any; [apply H|]. intros [a'|x]; [apply IH|apply inert_ret; intros ? ?; exact Logic.I].
Qed.
Lemma inert_while A B (P : ctx -> Prop) (b : A -> M (A + B)) a : (forall a, inert free (b a) (post any)) -> inert P (while b a) (post any).
Proof. intros H c Hc HP. unfold while. change (loop_fuel (retag c)) with (loop_fuel c). apply (inert_loop _ H a (P := P) Hc HP). Qed.
Lemma retag_rune p c : rune_at p (retag c) = rune_at p c.
Proof. reflexivity. Qed.
Lemma inert_peek (P : ctx -> Prop) : inert P peek (post any).
Proof. intros c Hc HP. unfold peek. rewrite retag_rune. cbn [retag c_pos]. destruct (rune_at (c_pos c) c) as [r|e]; split; try reflexivity; try exact Logic.I. split; [exact Hc|exact Logic.I]. Qed.
Lemma inert_peekAt (P : ctx -> Prop) p : inert P (peekAt p) (post any).
Proof. intros c Hc HP. unfold peekAt. destruct (p <? 0); [split; [reflexivity|split; [exact Hc|exact Logic.I]]|]. rewrite retag_rune. destruct (rune_at p c) as [r|e]; split; try reflexivity; try exact Logic.I. split; [exact Hc|exact Logic.I]. Qed.
(** the rune just read is before the position *)
Definition after (r : Z) (c : ctx) : Prop := r = "\"%ch -> exists a b, T = a ++ "\"%ch :: b /\ zlen a + 1 = c_pos c.
Lemma bind_next B (P : ctx -> Prop) (k : Z * Z -> M B) Q : (forall r p, (r = "`"%ch -> o_backtick o = o_backtick o') -> inert (after r) (k (r, p)) Q) -> inert P (bind next k) Q.
Proof.
  intros HK. eapply inert_bind with (R := fun a c => (fst a = "`"%ch -> o_backtick o = o_backtick o') /\ after (fst a) c).
  - intros c Hc HP. unfold next. rewrite retag_rune. cbn [retag c_pos]. destruct (rune_at (c_pos c) c) as [[r w]|e] eqn:E; split; try reflexivity; try exact Logic.I.
    pose proof Hc as (HT & _). split; [exact Hc|]. cbn [fst]. split.
    + intros ->. apply rune_here in E; [|split; reflexivity]. destruct E as (x & y & E & _). destruct HI as (_ & _ & _ & [H|H] & _); [exact H|]. exfalso. apply H. exists x, y. rewrite <- HT. exact E.
    + intros ->. apply rune_here in E; [|split; reflexivity]. destruct E as (x & y & E & E2 & ->). exists x, y. rewrite <- HT. split; [exact E|]. cbn [with_pos c_pos]. lia.
  - intros [r p] c Hc [H1 H2]. cbn [fst] in *. exact (HK r p H1 c Hc H2).
Qed.
Lemma bind_next_x B (P : ctx -> Prop) (k : Z * Z -> M B) Q : (forall c, P c -> after "\"%ch c) -> (forall r p, (r = "x"%ch -> o_hex o = o_hex o') -> inert (after r) (k (r, p)) Q) -> inert P (bind next k) Q.
Proof.
  intros HP HK. eapply inert_bind with (R := fun a c => (fst a = "x"%ch -> o_hex o = o_hex o') /\ after (fst a) c).
  - intros c Hc HPc. apply HP in HPc. unfold next. rewrite retag_rune. cbn [retag c_pos]. destruct (rune_at (c_pos c) c) as [[r w]|e] eqn:E; split; try reflexivity; try exact Logic.I.
    pose proof Hc as (HT & _). split; [exact Hc|]. cbn [fst]. split.
    + intros ->. apply rune_here in E; [|split; reflexivity]. destruct E as (x & y & E & E2 & _). destruct (HPc eq_refl) as (a & b & E3 & E4). destruct HI as (_ & _ & _ & _ & [H|H] & _); [exact H|]. exfalso. apply H.
      exists a, y. rewrite <- HT in E3 |- *. rewrite E3 in E.
      assert (X : x = a ++ ["\"%ch]).
      { assert (L : List.length x = List.length (a ++ ["\"%ch])) by (rewrite app_length; cbn [List.length]; unfold zlen in *; lia).
        replace (a ++ "\"%ch :: b) with ((a ++ ["\"%ch]) ++ b) in E by (now rewrite <- app_assoc).
        symmetry. eapply same_prefix; [exact E|congruence]. }
      rewrite E3, E, X, <- app_assoc. reflexivity.
    + intros ->. apply rune_here in E; [|split; reflexivity]. destruct E as (x & y & E & E2 & ->). exists x, y. rewrite <- HT. split; [exact E|]. cbn [with_pos c_pos]. lia.
  - intros [r p] c Hc [H1 H2]. cbn [fst] in *. exact (HK r p H1 c Hc H2).
Qed.
Lemma inert_next (P : ctx -> Prop) : inert P next (fun a c => after (fst a) c).
Proof.
  intros c Hc HP. assert (K : inert P (bind next (fun a => ret a)) (fun a c => after (fst a) c)).
  { apply bind_next. intros r p _. apply inert_ret. auto. }
  specialize (K c Hc HP). unfold bind, ret in K. destruct (next c) as [a d|e d|]; destruct (next (retag c)) as [a' d'|e' d'|]; exact K.
Qed.
Lemma inert_next_any (P : ctx -> Prop) : inert P next (post any).
Proof. eapply inert_weak with (P' := P); [apply inert_next|auto|]. intros; exact Logic.I. Qed.
Lemma inert_from (P : ctx -> Prop) p : inert P (from p) (post (fun s => contains s T)).
Proof.
  intros c Hc HP. unfold from. change (len (retag c)) with (len c). cbn [retag c_pos c_text]. destruct (_ && _); split; try reflexivity; try exact Logic.I. split; [exact Hc|]. destruct Hc as (<- & _). apply slice_contains.
Qed.
Lemma inert_letter (P : ctx -> Prop) x : inert P (isLetterM x) (post any).
Proof. apply inert_ask; [|intros; exact Logic.I]. intros c (_ & H & _). cbn [retag c_opts]. rewrite H. destruct HI as (_ & _ & E & _). unfold isLetterU. now rewrite E. Qed.
Lemma bind_option B (P : ctx -> Prop) f (k : bool -> M B) Q : f o = f o' -> (forall a, inert P (k a) Q) -> inert P (bind (option_on f) k) Q.
Proof.
  intros E HK. apply bind_ask; [intros c (_ & H & _); cbn [retag c_opts]; rewrite H; congruence|]. intros a. eapply inert_weak; [apply HK|intros c [H _]; exact H|auto].
Qed.
(** an option whose value makes no difference *)
Lemma bind_moot B (P : ctx -> Prop) f (k : bool -> M B) m Q : (forall b, k b = m) -> inert P m Q -> inert P (bind (option_on f) k) Q.
Proof. intros E H c Hc HP. unfold bind, option_on, ask. rewrite !E. exact (H c Hc HP). Qed.
Lemma inert_pop (P : ctx -> Prop) : inert P popName (post any).
Proof. intros c Hc HP. unfold popName. cbn [retag c_names]. destruct (c_names c); split; try reflexivity; try exact Logic.I. split; [exact Hc|exact Logic.I]. Qed.
Lemma inert_set (P : ctx -> Prop) t v : val_ok t v -> inert P (settokenValue t v) (post any).
Proof. intros H. apply inert_modify. intros c (H1 & H2 & _) _. repeat split; auto. Qed.
Lemma inert_settok (P : ctx -> Prop) t : inert P (setToken t) (post any).
Proof. apply inert_modify. intros c (H1 & H2 & _) _. repeat split; auto. Qed.
Lemma inert_tokenString (P : ctx -> Prop) : inert P tokenString (post any).
Proof.
  unfold tokenString. apply bind_ask; [reflexivity|]. intros v. destruct v; try apply inert_throw.
  - apply inert_ask; [reflexivity|intros; exact Logic.I].
  - apply inert_ret. intros; exact Logic.I.
Qed.
Lemma inert_name (P : ctx -> Prop) : (forall c, P c -> quoted (c_tok c) = false) -> inert P tokenString (post harmless).
Proof.
  intros HP c Hc H. destruct (inert_tokenString (P := P) Hc H) as [E _]. split; [exact E|]. specialize (HP c H). unfold tokenString, bind, ask. pose proof Hc as (_ & _ & Hv). unfold val_ok in Hv.
  destruct (c_val c); cbn; try exact Logic.I; (split; [exact Hc|]); [apply map_harmless|destruct Hv as [Hv|Hv]; [congruence|exact Hv]].
Qed.

Definition pre A (f : fn A) (c : ctx) : Prop :=
  match f with
  | FDelim _ _ HDouble _ ec _ _ => after ec c
  | FSelectLoop e | FLevelLoop _ e | FPrimaryLoop e => name_ok e
  | _ => True
  end.
Definition out A (f : fn A) : A -> Prop :=
  match f in fn A return A -> Prop with
  | FExpression | FSelectLoop _ | FLevel _ | FLevelLoop _ _ | FUnary | FPrimary | FPrimaryLoop _ | FAtom
  | FCall _ | FIf _ | FResourceExpr _ _ _ => name_ok
  | _ => fun _ => True
  end.

Section Rec.
Variable rec : forall A, fn A -> M A.
Hypothesis HR : forall A (f : fn A), inert (pre f) (rec f) (post (out f)).
Lemma rec_in A (P : ctx -> Prop) (f : fn A) (Q : A -> ctx -> Prop) : (forall c, P c -> pre f c) -> (forall a c, out f a -> Q a c) -> inert P (rec f) Q.
Proof. intros H HQ. eapply inert_weak; [apply HR|exact H|]. intros a c Ha. apply HQ, Ha. Qed.
Lemma bind_rec A B (P : ctx -> Prop) (f : fn A) (k : A -> M B) Q : (forall c, P c -> pre f c) -> (forall a, out f a -> inert free (k a) Q) -> inert P (bind (rec f) k) Q.
Proof. intros H HK. eapply bind_post with (R := out f); [|exact HK]. apply rec_in; auto. Qed.

Ltac head_of t := lazymatch t with ?f _ => head_of f | _ => t end.
Ltac hook := fail.
Ltac fin := cbn [pre out name_ok fst snd]; first [exact Logic.I | assumption | tauto | idtac].
Ltac r1 :=
  cbv beta iota;
  first [ hook | lazymatch goal with
  | |- inert _ (ret _) _ => apply inert_ret; intros ? ?; unfold post; fin
  | |- inert _ (throw _) _ => apply inert_throw
  | |- inert _ (issue2 _ _) _ => apply inert_issue2
  | |- inert _ (issue _) _ => apply inert_issue2
  | |- inert _ peek _ => apply inert_peek
  | |- inert _ next _ => apply inert_next_any
  | |- inert _ (peekAt _) _ => apply inert_peekAt
  | |- inert _ (from _) _ => eapply inert_weak; [apply inert_from|intros ? H; exact H|intros; exact Logic.I]
  | |- inert _ (isLetterM _) _ => apply inert_letter
  | |- inert _ popName _ => apply inert_pop
  | |- inert _ tokenString _ => apply inert_tokenString
  | |- inert _ (setToken _) _ => apply inert_settok
  | |- inert _ (settokenValue _ _) _ => apply inert_set; cbn [val_ok quoted name_ok]; first [exact Logic.I | left; reflexivity | right; assumption | right; right; reflexivity | idtac]
  | |- inert _ (while _ _) _ => apply inert_while; intros ?
  | |- inert _ (rec _) _ => apply rec_in; [intros ? ?; fin|intros ? ? ?; unfold post; fin]
  | |- inert _ (bind (rec _) _) _ => apply bind_rec; [intros ? ?; fin|intros ? ?]
  | |- inert _ (bind next _) _ => apply bind_next; intros ? ? ?
  | |- inert _ (bind (from _) _) _ => eapply bind_post; [apply inert_from|intros ? ?]
  | |- inert _ (bind (option_on o_epp) _) _ => apply bind_option; [apply HI|intros ?]
  | |- inert _ (bind (option_on o_factory) _) _ => apply bind_option; [apply HI|intros ?]
  | |- inert _ (bind (ask _) _) _ => apply bind_ask; [intros ? ?; reflexivity|intros ?]
  | |- inert _ (bind curTok _) _ => unfold curTok at 1
  | |- inert _ (bind getPos _) _ => unfold getPos at 1
  | |- inert _ (bind tokStart _) _ => unfold tokStart at 1
  | |- inert _ (bind (span _) _) _ => unfold span at 1
  | |- inert _ (let _ := _ in _) _ => cbv zeta
  | |- inert _ (bind _ _) _ => apply bind_any; [|intros ?]
  | |- inert _ (ask _) _ => apply inert_ask; [reflexivity|intros; exact Logic.I]
  | |- inert _ (modify _) _ => apply inert_modify; let H := fresh in let c := fresh in intros c (? & ? & H) ?; try (change (c_nls (retag c)) with (c_nls c); destruct (0 <=? c_nls c)); repeat split; auto; exact H
  | |- inert _ (if ?x then _ else _) _ => destruct x eqn:?
  | |- inert _ (match ?x with _ => _ end) _ => destruct x eqn:?
  | |- inert _ ?m _ => let h := head_of m in progress unfold h
  end].
Ltac r := repeat r1.
Lemma skip_in P b : inert P (skipWhite b) (post any).
Proof. unfold skipWhite. apply inert_while. intros [cs csp]. unfold skipWhite_step. r. Qed.
Lemma word_in P st t : inert P (consumeQualifiedName st t) (post any).
Proof.
  unfold consumeQualifiedName. apply bind_any; [apply inert_while; intros [a b]; unfold qualifiedName_step; r|]. intros d. eapply bind_post; [apply inert_from|]. intros w Hw. pose proof (contains_harmless Hw) as Hh.
  destruct (tok_eqb t TIdentifier); [|r]. destruct d; [r|]. destruct (kw_lookup w) as [k|] eqn:E; [|r]. destruct k; try solve [r].
  apply kw_plan in E as ->. apply bind_option; [|intros b; r]. destruct HI as (_ & _ & _ & _ & _ & [H|H] & _); [exact H|contradiction].
Qed.
Ltac hook ::= lazymatch goal with
  | |- inert _ (skipWhite _) _ => apply skip_in
  | |- inert _ (consumeQualifiedName _ _) _ => apply word_in
  end.
Lemma escape_in P h buf ec : (h = HDouble -> ec = "x"%ch -> o_hex o = o_hex o') -> inert P (handle_escape h buf ec) (post any).
Proof.
  intros H. unfold handle_escape. destruct h; try solve [r].
  repeat lazymatch goal with |- inert _ (if _ then _ else _) _ => r1; [solve [r]|] end. destruct (ec =? "x"%ch) eqn:E.
  - apply bind_option; [apply H; [reflexivity|apply Z.eqb_eq, E]|]. intros b. r.
  - eapply bind_moot; [intros b; cbn [andb]; reflexivity|]. r.
Qed.
Lemma interpolate_in P st : inert P (interpolate rec st) (post any).
Proof. unfold interpolate. r. Qed.
Ltac hook ::= lazymatch goal with
  | |- inert _ (skipWhite _) _ => apply skip_in
  | |- inert _ (consumeQualifiedName _ _) _ => apply word_in
  | |- inert _ (interpolate _ _) _ => apply interpolate_in
  end.
Lemma delim_in d s h b ec st sg : inert (pre (FDelim d s h b ec st sg)) (delim_body rec d s h b ec st sg) (post (out (FDelim d s h b ec st sg))).
Proof.
  unfold delim_body. cbv zeta.
  assert (L : forall P buf st' sg', inert P (bind next (fun '(ec', _) => rec (FDelim d s h buf ec' st' sg'))) (post any)).
  { intros. apply bind_next. intros r' p _. apply rec_in; [|intros; exact Logic.I]. intros c Hc. destruct h; try exact Logic.I. exact Hc. }
  r1; [r|]. r1; [r|]. destruct (ec =? "\"%ch) eqn:E.
  - assert (ec = "\"%ch) by (apply Z.eqb_eq, E). subst ec.
    assert (B : forall (k : Z * Z -> M (option (list expr))), (forall r' p, (h = HDouble -> r' = "x"%ch -> o_hex o = o_hex o') -> inert free (k (r', p)) (post any)) -> inert (pre (FDelim d s h b "\"%ch st sg)) (bind next k) (post any)).
    { intros k Hk. destruct h; cbn [pre]; try (apply bind_next; intros r' p _; eapply inert_weak; [apply Hk; discriminate|intros; exact Logic.I|auto]).
      apply bind_next_x; [auto|]. intros r' p Hx. eapply inert_weak; [apply Hk; auto|intros; exact Logic.I|auto]. }
    apply B. intros r' p Hx. cbv beta iota. destruct (r' =? 0); [r|]. destruct (r' =? d); [apply L|]. apply bind_any; [apply escape_in, Hx|]. intros buf. apply L.
  - destruct (ec =? "$"%ch); [|apply L]. destruct sg as [ss|]; [|apply L]. apply bind_any; [r|]. intros ss'. apply bind_next. intros r' p _. apply rec_in; [|intros; exact Logic.I]. intros c Hc. destruct h; try exact Logic.I. exact Hc.
Qed.
Ltac hook ::= lazymatch goal with
  | |- inert _ (skipWhite _) _ => apply skip_in
  | |- inert _ (consumeQualifiedName _ _) _ => apply word_in
  | |- inert _ (interpolate _ _) _ => apply interpolate_in
  end.
Lemma delimited_in P d s sg h : inert P (consumeDelimitedString rec d s sg h) (post any).
Proof. unfold consumeDelimitedString. apply bind_next. intros r' p _. apply rec_in; [|intros; exact Logic.I]. intros c Hc. destruct h; try exact Logic.I. exact Hc. Qed.
Lemma flags_in P st f : inert P (extract_flags st f) (post any).
Proof. revert P. induction f as [|x f IH]; intros P; cbn [extract_flags]; r; apply IH. Qed.
Ltac hook ::= lazymatch goal with
  | |- inert _ (skipWhite _) _ => apply skip_in
  | |- inert _ (consumeQualifiedName _ _) _ => apply word_in
  | |- inert _ (interpolate _ _) _ => apply interpolate_in
  | |- inert _ (consumeDelimitedString _ _ _ _ _) _ => apply delimited_in
  | |- inert _ (extract_flags _ _) _ => apply flags_in
  end.
Lemma apply_in e i fl bld c st sg : inert (pre (FApply e i fl bld c st sg)) (apply_body rec e i fl bld c st sg) (post (out (FApply e i fl bld c st sg))).
Proof. unfold apply_body. r. Qed.
Lemma heredoc_in P : inert P (consumeHeredocString rec) (post any).
Proof. unfold consumeHeredocString. r. Qed.
Lemma epp_in P : inert P (consumeEPP rec) (post any).
Proof. unfold consumeEPP. r. Qed.
Lemma regexp_in P : inert P (consumeRegexp rec) (post any).
Proof.
  unfold consumeRegexp. r. all: apply inert_modify; intros c (H1 & H2 & H3) _; repeat split; auto; unfold val_ok in *; cbn [with_tok c_tok c_val quoted]; destruct (c_val c); auto.
Qed.
Lemma double_in P : inert P (consumeDoubleQuotedString rec) (post any).
Proof. unfold consumeDoubleQuotedString. r. Qed.
Ltac hook ::= lazymatch goal with
  | |- inert _ (skipWhite _) _ => apply skip_in
  | |- inert _ (consumeQualifiedName _ _) _ => apply word_in
  | |- inert _ (interpolate _ _) _ => apply interpolate_in
  | |- inert _ (consumeDelimitedString _ _ _ _ _) _ => apply delimited_in
  | |- inert _ (consumeHeredocString _) _ => apply heredoc_in
  | |- inert _ (consumeEPP _) _ => apply epp_in
  | |- inert _ (consumeRegexp _) _ => apply regexp_in
  | |- inert _ (consumeDoubleQuotedString _) _ => apply double_in
  end.
Lemma number_in P st : inert P (lex_number st) (post any).
Proof. r. Qed.
Lemma zero_in P st : inert P (lex_zero st) (post any).
Proof. r. Qed.
Lemma backtick_in P : inert P consumeBacktickedString (post any).
Proof. r. Qed.
Ltac hook ::= lazymatch goal with
  | |- inert _ (skipWhite _) _ => apply skip_in
  | |- inert _ (consumeQualifiedName _ _) _ => apply word_in
  | |- inert _ (interpolate _ _) _ => apply interpolate_in
  | |- inert _ (consumeDelimitedString _ _ _ _ _) _ => apply delimited_in
  | |- inert _ (consumeHeredocString _) _ => apply heredoc_in
  | |- inert _ (consumeEPP _) _ => apply epp_in
  | |- inert _ (consumeRegexp _) _ => apply regexp_in
  | |- inert _ (consumeDoubleQuotedString _) _ => apply double_in
  | |- inert _ (lex_number _) _ => apply number_in
  | |- inert _ (lex_zero _) _ => apply zero_in
  | |- inert _ consumeBacktickedString _ => apply backtick_in
  end.
Lemma skip_tick P b : inert P (skipWhite b) (post (fun a => fst a = "`"%ch -> o_backtick o = o_backtick o')).
Proof.
  unfold skipWhite, while. intros c Hc HP. change (loop_fuel (retag c)) with (loop_fuel c). generalize (loop_fuel c). intros n. revert c Hc HP. generalize (0, 0). revert P. induction n as [|n IH]; intros P st; [apply inert_fuel|]. cbn [loop].
  apply bind_post with (R := fun x => match x with inl _ => True | inr a => fst a = "`"%ch -> o_backtick o = o_backtick o' end).
  - destruct st as [cs csp]. unfold skipWhite_step. apply bind_next. intros q p Hq. r.
  - intros [st'|a] Ha; [exact (IH free st')|]. apply inert_ret. intros c _. exact Ha.
Qed.
Lemma token_in P a b c : (c = "`"%ch -> o_backtick o = o_backtick o') -> inert P (lex_token rec a b c) (post any).
Proof.
  intros H. unfold lex_token. repeat lazymatch goal with |- inert _ (if ?x then _ else _) _ => let E := fresh "E" in destruct x eqn:E; [lazymatch type of E with (_ =? 96) = _ => idtac | _ => solve [r] end|] end; [|r].
  apply bind_option; [match goal with E : (c =? 96) = true |- _ => apply H, Z.eqb_eq, E end|]. intros bt. r.
Qed.
Lemma next_in : inert (pre FNextToken) (nextToken_body rec) (post (out FNextToken)).
Proof.
  unfold nextToken_body, getPos. apply bind_ask; [reflexivity|]. intros s0. eapply bind_post; [apply skip_tick|]. intros [q p] Hq. cbn [fst] in Hq. cbv beta iota. apply bind_any; [r|]. intros _. apply token_in, Hq.
Qed.

(** ** The parser *)
Lemma commas_in es P : inert P (check_commas es) (post any).
Proof. revert P. induction es as [|e es IH]; intros P; cbn [check_commas]; [r|]. destruct e; try apply IH. r. Qed.
Lemma calls_in es P : inert P (transformCalls es) (post any).
Proof. unfold transformCalls. destruct es as [|m es]; [r|]. destruct (transform_from m es) as [x b]. apply bind_any; [destruct b; [apply commas_in|r]|]. intros _. r. Qed.
Lemma value_in P : inert P value_expr (post name_ok).
Proof.
  intros c Hc HP. pose proof Hc as (_ & _ & Hv). unfold value_expr, bind, ask. cbn [retag c_val]. unfold val_ok in Hv. destruct (c_val c); split; try reflexivity; try exact Logic.I. split; [exact Hc|exact Hv].
Qed.
Ltac hook ::= lazymatch goal with
  | |- inert _ (transformCalls _) _ => apply calls_in
  end.
Lemma parse_in e s : inert (pre (FParse e s)) (parse_body rec e s) (post (out (FParse e s))).
Proof. unfold parse_body. r. Qed.
Lemma statements_in e acc : inert (pre (FStatements e acc)) (statements_body rec e acc) (post (out (FStatements e acc))).
Proof. unfold statements_body. r. Qed.
Lemma commalist_in acc : inert (pre (FCommas acc)) (commas_body rec acc) (post (out (FCommas acc))).
Proof. unfold commas_body. r. Qed.
Lemma expressions_in e p acc : inert (pre (FExpressions e p acc)) (expressions_body rec e p acc) (post (out (FExpressions e p acc))).
Proof. unfold expressions_body. r. Qed.
Lemma relationship_in : inert (pre FRelationship) (relationship_body rec) (post (out FRelationship)).
Proof. unfold relationship_body. r. Qed.
Lemma relLoop_in e : inert (pre (FRelLoop e)) (relLoop_body rec e) (post (out (FRelLoop e))).
Proof. unfold relLoop_body. r. Qed.
Lemma resource_in P : inert P (resource rec) (post name_ok).
Proof. unfold resource. r. Qed.
Lemma identifier_in P : inert P (identifier rec) (post any).
Proof. unfold identifier. r. Qed.
Lemma step_in P : inert P (step rec) (post any).
Proof.
  unfold step, getPos. apply bind_ask; [reflexivity|]. intros st. eapply bind_post; [apply resource_in|]. intros e He. destruct HI as (_ & _ & _ & _ & _ & _ & HW).
  assert (K : o_workflow o = o_workflow o' \/ match e with EQName _ s => workflowStyle s = None | _ => True end).
  { destruct e; cbn [name_ok] in He; auto. }
  clear HW. destruct K as [K|K].
  - apply bind_option; [exact K|]. intros b. r.
  - eapply bind_moot with (m := ret e); [|r]. intros b. destruct b; [|reflexivity]. destruct e; try reflexivity. now rewrite K.
Qed.
Lemma assignment_in : inert (pre FAssignment) (assignment_body rec) (post (out FAssignment)).
Proof. unfold assignment_body. apply bind_any; [apply step_in|]. intros e. r. Qed.
Lemma assignLoop_in e : inert (pre (FAssignLoop e)) (assignLoop_body rec e) (post (out (FAssignLoop e))).
Proof. unfold assignLoop_body. r. Qed.
Lemma className_in P : inert P (className rec) (post any).
Proof. unfold className. r. Qed.
Lemma capability_in P e k : inert P (capabilityMapping rec e k) (post name_ok).
Proof. unfold capabilityMapping. r. Qed.
Ltac hook ::= lazymatch goal with
  | |- inert _ (transformCalls _) _ => apply calls_in
  | |- inert _ (capabilityMapping _ _ _) _ => apply capability_in
  end.
Lemma expression_in : inert (pre FExpression) (expression_body rec) (post (out FExpression)).
Proof. unfold expression_body. r. Qed.
Lemma selectors_in P e : inert P (selectorsExpression rec e) (post name_ok).
Proof. unfold selectorsExpression. r. Qed.
Lemma selectLoop_in e : inert (pre (FSelectLoop e)) (selectLoop_body rec e) (post (out (FSelectLoop e))).
Proof. unfold selectLoop_body, curTok. apply bind_ask; [reflexivity|]. intros t. destruct (tok_eqb t TQmark); [eapply bind_post; [apply selectors_in|]; intros e' He'; r|r]. Qed.
Lemma operand_in P l : inert P (level_operand rec l) (post name_ok).
Proof. unfold level_operand. r. Qed.
Lemma level_in l : inert (pre (FLevel l)) (level_body rec l) (post (out (FLevel l))).
Proof. unfold level_body. eapply bind_post; [apply operand_in|]. intros e He. r. Qed.
Lemma levelLoop_in l e : inert (pre (FLevelLoop l e)) (levelLoop_body rec l e) (post (out (FLevelLoop l e))).
Proof. unfold levelLoop_body. r. Qed.
Lemma unary_node_in P k st m : (forall P', inert P' m (post any)) -> inert P (unary_node rec k st m) (post name_ok).
Proof. intros H. unfold unary_node. r1. eapply bind_any; [apply H|]. intros e. r. Qed.
Lemma set_pos_name p e : name_ok e -> name_ok (set_pos p e).
Proof. destruct e; auto. Qed.
Lemma signed_in P st : inert P (signed_number rec st) (post name_ok).
Proof. unfold signed_number. r. now apply set_pos_name. Qed.
Ltac hook ::= lazymatch goal with
  | |- inert _ (transformCalls _) _ => apply calls_in
  | |- inert _ (capabilityMapping _ _ _) _ => apply capability_in
  | |- inert _ (signed_number _ _) _ => apply signed_in
  | |- inert _ (unary_node _ _ _ _) _ => apply unary_node_in; intros ?
  end.
Lemma unary_in : inert (pre FUnary) (unary_body rec) (post (out FUnary)).
Proof. unfold unary_body. r. Qed.
Lemma lambda_in P : inert P (lambda rec) (post any).
Proof. unfold lambda. r. Qed.
Lemma call_in f : inert (pre (FCall f)) (call_body rec f) (post (out (FCall f))).
Proof. unfold call_body. r. all: destruct f; try discriminate; exact Logic.I. Qed.
Lemma primary_in : inert (pre FPrimary) (primary_body rec) (post (out FPrimary)).
Proof. unfold primary_body. r. Qed.
Lemma collect_in P e : inert P (collectExpression rec e) (post name_ok).
Proof. unfold collectExpression. r. Qed.
Ltac hook ::= lazymatch goal with
  | |- inert _ (transformCalls _) _ => apply calls_in
  | |- inert _ (capabilityMapping _ _ _) _ => apply capability_in
  | |- inert _ (signed_number _ _) _ => apply signed_in
  | |- inert _ (unary_node _ _ _ _) _ => apply unary_node_in; intros ?
  | |- inert _ (bind (collectExpression _ _) _) _ => eapply bind_post; [apply collect_in|intros ? ?]
  end.
Lemma primaryLoop_in e : inert (pre (FPrimaryLoop e)) (primaryLoop_body rec e) (post (out (FPrimaryLoop e))).
Proof. unfold primaryLoop_body. r. all: try (match goal with |- name_ok (if ?x then _ else _) => destruct x end; exact Logic.I). Qed.
Lemma if_in b : inert (pre (FIf b)) (if_body rec b) (post (out (FIf b))).
Proof. unfold if_body. r. Qed.
Lemma case_in P : inert P (caseExpression rec) (post name_ok).
Proof. unfold caseExpression. r. Qed.
Lemma caseOptions_in acc : inert (pre (FCaseOptions acc)) (caseOptions_body rec acc) (post (out (FCaseOptions acc))).
Proof. unfold caseOptions_body. r. Qed.
Lemma resourceExpr_in s e f : inert (pre (FResourceExpr s e f)) (resourceExpr_body rec s e f) (post (out (FResourceExpr s e f))).
Proof. unfold resourceExpr_body. r. Qed.
Lemma bodies_in t acc : inert (pre (FBodies t acc)) (bodies_body rec t acc) (post (out (FBodies t acc))).
Proof. unfold bodies_body. r. Qed.
Lemma attrOps_in acc : inert (pre (FAttrOps acc)) (attrOps_body rec acc) (post (out (FAttrOps acc))).
Proof. unfold attrOps_body. r. Qed.
Lemma parameterType_in : inert (pre FParameterType) (parameterType_body rec) (post (out FParameterType)).
Proof. unfold parameterType_body. r. Qed.
Lemma dotted_in st ns : inert (pre (FDotted st ns)) (dotted_body rec st ns) (post (out (FDotted st ns))).
Proof. unfold dotted_body. r. Qed.
Lemma hostnames_in acc : inert (pre (FHostnames acc)) (hostnames_body rec acc) (post (out (FHostnames acc))).
Proof. unfold hostnames_body. r. Qed.
Lemma activities_in acc : inert (pre (FActivities acc)) (activities_body rec acc) (post (out (FActivities acc))).
Proof. unfold activities_body. r. Qed.
Lemma iterator_in P n : inert P (iterator rec n) (post any).
Proof. unfold iterator. r. Qed.
Ltac hook ::= lazymatch goal with
  | |- inert _ (transformCalls _) _ => apply calls_in
  | |- inert _ (iterator _ _) _ => apply iterator_in
  end.
Lemma stepDecl_in s st n b : inert (pre (FStepDecl s st n b)) (stepDecl_body rec s st n b) (post (out (FStepDecl s st n b))).
Proof. unfold stepDecl_body. r. Qed.
Lemma eppLoop_in acc : inert (pre (FEppLoop acc)) (eppLoop_body rec acc) (post (out (FEppLoop acc))).
Proof. unfold eppLoop_body. r. Qed.
Lemma leaf_in (P : ctx -> Prop) st mk : (forall p (P' : ctx -> Prop), (forall c, P' c -> P c) -> inert P' (mk p) (post name_ok)) -> inert P (leaf rec st mk) (post name_ok).
Proof.
  intros H. unfold leaf, span. apply bind_ask; [reflexivity|]. intros p. eapply bind_post; [apply H; intros c [Hc _]; exact Hc|]. intros e He. r.
Qed.
Lemma leaf_any (P : ctx -> Prop) st mk : (forall p P', inert P' (mk p) (post name_ok)) -> inert P (leaf rec st mk) (post name_ok).
Proof. intros H. apply leaf_in. intros p P' _. apply H. Qed.
Lemma name_leaf (P : ctx -> Prop) p : (forall c, P c -> quoted (c_tok c) = false) -> inert P (bind tokenString (fun s => ret (EQName p s))) (post name_ok).
Proof. intros H. eapply bind_post; [apply inert_name, H|]. intros s Hs. apply inert_ret. intros c _. exact Hs. Qed.
Lemma class_in P st : inert P (classExpression rec st) (post name_ok).
Proof. unfold classExpression. r. Qed.
Lemma alias_in P : inert P (typeAliasOrDefinition rec) (post name_ok).
Proof. r. Qed.
Lemma plan_in P : inert P (planDefinition rec) (post name_ok).
Proof. r. Qed.
Lemma function_in P : inert P (functionDefinition rec) (post name_ok).
Proof. r. Qed.
Lemma node_in P : inert P (nodeDefinition rec) (post name_ok).
Proof. r. Qed.
Lemma define_in P k : inert P (resourceDefinition rec k) (post name_ok).
Proof. r. Qed.
Lemma site_in P : inert P (siteDefinition rec) (post name_ok).
Proof. r. Qed.
Ltac hook ::= lazymatch goal with
  | |- inert _ (classExpression _ _) _ => apply class_in
  | |- inert _ (typeAliasOrDefinition _) _ => apply alias_in
  | |- inert _ (planDefinition _) _ => apply plan_in
  | |- inert _ (functionDefinition _) _ => apply function_in
  | |- inert _ (nodeDefinition _) _ => apply node_in
  | |- inert _ (resourceDefinition _ _) _ => apply define_in
  | |- inert _ (siteDefinition _) _ => apply site_in
  | |- inert _ (caseExpression _) _ => apply case_in
  | |- inert _ (leaf _ _ (fun p => s <- tokenString ;; ret (EQName p s))) _ => apply leaf_in; intros ? ? HP; apply name_leaf; let H := fresh in intros ? H; apply HP in H; destruct H as [[_ H] _]; rewrite H; reflexivity
  | |- inert _ (leaf _ _ _) _ => apply leaf_any; intros ? ?
  | |- inert _ (bind value_expr _) _ => eapply bind_post; [apply value_in|intros ? ?]
  end.
Lemma atom_in : inert (pre FAtom) (atom_body rec) (post (out FAtom)).
Proof.
  unfold atom_body, tokStart, curTok. apply bind_ask; [reflexivity|]. intros st. apply bind_ask; [reflexivity|]. intros t. apply bind_ask; [reflexivity|]. intros v.
  destruct t; try solve [r].
  all: eapply bind_post; [apply inert_name; let H := fresh in intros ? H; destruct H as [[_ H] _]; rewrite H; reflexivity|]; intros name Hn; r.
Qed.
Lemma top_in P single : inert P (parseTop rec single) (post any).
Proof. unfold parseTop. r. Qed.
Lemma body_in A (f : fn A) : inert (pre f) (body rec f) (post (out f)).
Proof.
  destruct f; cbn [body].
  - apply next_in. - apply delim_in. - apply apply_in. - apply parse_in. - apply statements_in. - apply commalist_in. - apply expressions_in.
  - apply relationship_in. - apply relLoop_in. - apply assignment_in. - apply assignLoop_in. - apply expression_in. - apply selectLoop_in.
  - apply level_in. - apply levelLoop_in. - apply unary_in. - apply primary_in. - apply primaryLoop_in. - apply atom_in. - apply call_in.
  - apply parameterType_in. - apply if_in. - apply caseOptions_in. - apply resourceExpr_in. - apply bodies_in. - apply attrOps_in.
  - apply hostnames_in. - apply dotted_in. - apply activities_in. - apply stepDecl_in. - apply eppLoop_in.
Qed.
End Rec.
Lemma run_in n : forall A (f : fn A), inert (pre f) (run n f) (post (out f)).
Proof. induction n as [|n IH]; intros A f; [apply inert_fuel|]. cbn [run]. apply body_in, IH. Qed.
Lemma parse_top_in n single : inert free (parseTop (run n) single) (post any).
Proof. apply top_in, run_in. Qed.
Lemma next_token_in n : inert free (run n FNextToken) (post any).
Proof. exact (@run_in n unit FNextToken). Qed.
End Sim.
