(** * ReuseProof: what a Parse call sees of the calls before it

    Two parser states that agree on everything but the start, the value and the
    radix of the current token behave alike. *)
From Verif Require Import Base Utf8Facts Float Tokens Ast Ctx Locator Lexer Parser Api FuelMono SpecParse ParseProof SpecReuse.
From Coq Require Import Lia ZifyBool.

(** how far two states agree: on all but the token's start, value and radix; on
    its start too; on its radix too; on all but the radix of a token that is
    not an integer *)
Definition core (c c' : ctx) : Prop :=
  c_text c = c_text c' /\ c_opts c = c_opts c' /\ c_pos c = c_pos c' /\ c_nls c = c_nls c' /\ c_tok c = c_tok c' /\ c_bol c = c_bol c'
  /\ c_names c = c_names c' /\ c_defs c = c_defs c'.
Inductive lev := Core | Text | Warm | Rad | Clean | Full.
Definition R (l : lev) (c c' : ctx) : Prop :=
  match l with
  | Core => core c c'
  | Text => core c c' /\ c_val c = c_val c' /\ (c_tok c = TEnd \/ c_tok c = TRenderString)
  | Warm => core c c' /\ c_tsp c = c_tsp c'
  | Rad => core c c' /\ c_tsp c = c_tsp c' /\ c_radix c = c_radix c'
  | Clean => core c c' /\ c_tsp c = c_tsp c' /\ c_val c = c_val c' /\ (c_tok c = TInteger -> c_radix c = c_radix c')
  | Full => core c c' /\ c_tsp c = c_tsp c' /\ c_val c = c_val c' /\ c_radix c = c_radix c'
  end.
Definition below (l l' : lev) : bool :=
  match l, l' with _, Core => true | Core, _ => false | Text, Text => true | Text, _ => false | _, Warm => true | Rad, Rad => true | Clean, Clean => true | Full, (Rad | Clean | Full) => true | _, _ => false end.
Lemma R_below l l' c c' : R l c c' -> below l l' = true -> R l' c c'.
Proof. destruct l, l'; cbn; try discriminate; tauto. Qed.
Lemma R_core l c c' : R l c c' -> core c c'.
Proof. destruct l; cbn; tauto. Qed.
Definition both A (m m' : M A) (Q : ctx -> ctx -> Prop) (c c' : ctx) : Prop :=
  match m c, m' c' with
  | Ok a d, Ok a' d' => a = a' /\ Q d d'
  | Err e d, Err e' d' => e = e' /\ core d d'
  | Fuel, Fuel => True
  | _, _ => False
  end.
Definition rel A (l : lev) (m : M A) (l' : lev) : Prop := forall c c', R l c c' -> both m m (R l') c c'.
Lemma both_bind A B (m m' : M A) (k k' : A -> M B) (P Q : ctx -> ctx -> Prop) c c' :
  both m m' P c c' -> (forall a d d', P d d' -> both (k a) (k' a) Q d d') -> both (bind m k) (bind m' k') Q c c'.
Proof.
  unfold both, bind. intros H HK. destruct (m c) as [a d|e d|], (m' c') as [a' d'|e' d'|]; try contradiction; auto. destruct H as [<- H]. apply HK; auto.
Qed.
Lemma rel_bind A B l1 l l2 (m : M A) (k : A -> M B) : rel l m l1 -> (forall a, rel l1 (k a) l2) -> rel l (bind m k) l2.
Proof. intros H HK c c' HR. eapply both_bind; [apply H, HR|]. intros a d d' HD. apply HK, HD. Qed.
Lemma rel_ret A l l' (a : A) : below l l' = true -> rel l (ret a) l'.
Proof. intros H c c' HR. split; [reflexivity|]. eapply R_below; eauto. Qed.
Lemma rel_post A l l1 l' (m : M A) : rel l m l1 -> below l1 l' = true -> rel l m l'.
Proof.
  intros H HB c c' HR. specialize (H c c' HR). unfold both in *. destruct (m c), (m c'); auto. destruct H as [H1 H2]. split; [exact H1|]. eapply R_below; eauto.
Qed.
Lemma rel_pre A l l0 l' (m : M A) : rel l0 m l' -> below l l0 = true -> rel l m l'.
Proof. intros H HB c c' HR. apply H. eapply R_below; eauto. Qed.
Lemma rel_ask A l l' (f : ctx -> A) : below l l' = true -> (forall c c', R l c c' -> f c = f c') -> rel l (ask f) l'.
Proof. intros HB H c c' HR. split; [auto|]. eapply R_below; eauto. Qed.
Lemma rel_modify l l' (f : ctx -> ctx) : (forall c c', R l c c' -> R l' (f c) (f c')) -> rel l (modify f) l'.
Proof. intros H c c' HR. split; [reflexivity|auto]. Qed.
Lemma rel_throw A l l' e : rel l (@throw A e) l'.
Proof. intros c c' HR. split; [reflexivity|eapply R_core; eauto]. Qed.
Lemma rel_fuel A l l' : rel l (@out_of_fuel A) l'.
Proof. intros c c' HR. exact Logic.I. Qed.
Lemma rel_issue A l l' code a : rel l (@issue2 A code a) l'.
Proof. intros c c' HR. apply R_core in HR. split; [f_equal; apply HR|exact HR]. Qed.
Lemma rel_issue1 A l l' code : rel l (@issue A code) l'.
Proof. apply rel_issue. Qed.
Lemma rel_loop A B l n (b : A -> M (A + B)) : (forall a, rel l (b a) l) -> forall a, rel l (loop n b a) l.
Proof.
  intros H. induction n as [|n IH]; intros a; [apply rel_fuel|]. cbn [loop]. apply rel_bind with (l1 := l); [apply H|].
  intros [a'|x]; [apply IH|apply rel_ret; destruct l; reflexivity].
Qed.
Lemma rel_while A B l (b : A -> M (A + B)) a : (forall a, rel l (b a) l) -> rel l (while b a) l.
Proof.
  intros H c c' HR. unfold while. assert (loop_fuel c = loop_fuel c') as E by (unfold loop_fuel; do 3 f_equal; apply (R_core HR)).
  unfold both. rewrite <- E. apply (rel_loop _ H a HR).
Qed.
Lemma rune_same l c c' p : R l c c' -> rune_at p c = rune_at p c'.
Proof. intros H. apply R_core in H. destruct H as (H1 & H2 & H3 & _). unfold rune_at, len. now rewrite H1, H3. Qed.
Lemma core_pos c c' p : core c c' -> core (with_pos p c) (with_pos p c').
Proof. unfold core. cbn. tauto. Qed.
Lemma R_pos l c c' p : R l c c' -> R l (with_pos p c) (with_pos p c').
Proof. destruct l; cbn; unfold core; cbn; tauto. Qed.
Lemma rel_peek l : rel l peek l.
Proof. intros c c' HR. unfold both, peek. rewrite (rune_same (c_pos c) HR). replace (c_pos c') with (c_pos c) by apply (R_core HR). destruct (rune_at _ c') as [[? ?]|]; auto. split; [auto|eapply R_core; eauto]. Qed.
Lemma rel_peekAt l p : rel l (peekAt p) l.
Proof. intros c c' HR. unfold both, peekAt. rewrite (rune_same p HR). destruct (p <? 0); [auto|]. destruct (rune_at _ c') as [[? ?]|]; auto. split; [auto|eapply R_core; eauto]. Qed.
Lemma rel_next l : rel l next l.
Proof.
  intros c c' HR. unfold both, next. rewrite (rune_same (c_pos c) HR). replace (c_pos c') with (c_pos c) by apply (R_core HR).
  destruct (rune_at _ c') as [[r w]|]; [|split; [auto|eapply R_core; eauto]]. split; [auto|]. apply R_pos; exact HR.
Qed.
Lemma rel_from l p : rel l (from p) l.
Proof.
  intros c c' HR. unfold both, from, len. pose proof (R_core HR) as (H1 & _ & H3 & _). rewrite H1, H3. destruct (_ && _); [auto|]. split; [auto|]. eapply R_core; eauto.
Qed.
Lemma rel_pop : rel Clean popName Clean.
Proof.
  intros c c' HR. unfold both, popName. pose proof HR as ((H1 & H2 & H3 & H4 & H5 & H6 & H7 & H8) & H9). rewrite <- H7. destruct (c_names c); [split; [auto|exact (proj1 HR)]|]. split; [auto|].
  cbn. unfold core. cbn. tauto.
Qed.
Lemma rel_token l t v : t <> TInteger -> below l Warm = true -> rel l (settokenValue t v) Clean.
Proof. intros Ht HB. apply rel_modify. intros c c' HR. apply R_below with (l' := Warm) in HR; [|exact HB]. cbn in *. unfold core in *. cbn. intuition. Qed.
Lemma rel_integer l v : below l Rad = true -> rel l (settokenValue TInteger v) Clean.
Proof. intros HB. apply rel_modify. intros c c' HR. apply R_below with (l' := Rad) in HR; [|exact HB]. cbn in *. unfold core in *. cbn. intuition. Qed.
Lemma rel_radix l r : below l Warm = true -> rel l (modify (with_radix r)) Rad.
Proof. intros HB. apply rel_modify. intros c c' HR. apply R_below with (l' := Warm) in HR; [|exact HB]. cbn in *. unfold core in *. cbn. intuition. Qed.
Lemma rel_start l p : rel l (modify (with_tsp p)) Warm.
Proof. apply rel_modify. intros c c' HR. apply R_core in HR. cbn. unfold core in *. cbn. intuition. Qed.

Lemma core_nls c c' : core c c' -> c_nls c = c_nls c'.
Proof. unfold core. tauto. Qed.
Lemma core_at c c' : core c c' -> c_pos c = c_pos c'.
Proof. unfold core. tauto. Qed.
Lemma core_bol c c' : core c c' -> c_bol c = c_bol c'.
Proof. unfold core. tauto. Qed.
Lemma rel_getPos l : rel l getPos l.
Proof. apply rel_ask; [destruct l; reflexivity|]. intros c c' HR. apply (core_at (R_core HR)). Qed.
Lemma rel_curTok l : rel l curTok l.
Proof. apply rel_ask; [destruct l; reflexivity|]. intros c c' HR. apply (R_core HR). Qed.
Lemma rel_option l f : rel l (option_on f) l.
Proof. apply rel_ask; [destruct l; reflexivity|]. intros c c' HR. f_equal. apply (R_core HR). Qed.
Lemma rel_letter l x : rel l (isLetterM x) l.
Proof. apply rel_ask; [destruct l; reflexivity|]. intros c c' HR. f_equal. apply (R_core HR). Qed.
Lemma rel_text_of l : rel l (ask c_text) l.
Proof. apply rel_ask; [destruct l; reflexivity|]. intros c c' HR. apply (R_core HR). Qed.
Lemma rel_span l z : rel l (span z) l.
Proof. apply rel_ask; [destruct l; reflexivity|]. intros c c' HR. now rewrite (core_at (R_core HR)). Qed.
Lemma rel_tokStart l : below l Warm = true -> rel l tokStart l.
Proof. intros HB. apply rel_ask; [destruct l; reflexivity|]. intros c c' HR. apply R_below with (l' := Warm) in HR; [|exact HB]. apply HR. Qed.
Lemma rel_value l : below l Clean = true -> rel l (ask c_val) l.
Proof. intros HB. apply rel_ask; [destruct l; reflexivity|]. intros c c' HR. apply R_below with (l' := Clean) in HR; [|exact HB]. apply HR. Qed.
Lemma rel_setPos l p : rel l (setPos p) l.
Proof. apply rel_modify. intros c c' HR. apply R_pos, HR. Qed.
Lemma rel_advance l p : rel l (advance p) l.
Proof. apply rel_modify. intros c c' HR. rewrite (core_at (R_core HR)). apply R_pos, HR. Qed.
Lemma rel_toStart l : below l Warm = true -> rel l toTokenStart l.
Proof. intros HB. apply rel_modify. intros c c' HR. pose proof (R_below HR HB) as E. rewrite (proj2 E). apply R_pos, HR. Qed.
Ltac lvl := lazymatch goal with |- below _ _ = true => reflexivity end.
(** what a step leaves: [l] if it does not write the token *)
Ltac flat H := cbn in H |- *; unfold core in *; cbn in H |- *.
Ltac rel1 :=
  cbv beta iota;
  lazymatch goal with
  | |- rel _ (ret _) _ => apply rel_ret; reflexivity
  | |- rel _ (throw _) _ => apply rel_throw
  | |- rel _ (issue2 _ _) _ => apply rel_issue
  | |- rel _ (issue _) _ => apply rel_issue1
  | |- rel ?l peek ?l => apply rel_peek
  | |- rel ?l next ?l => apply rel_next
  | |- rel ?l (peekAt _) ?l => apply rel_peekAt
  | |- rel ?l (from _) ?l => apply rel_from
  | |- rel ?l getPos ?l => apply rel_getPos
  | |- rel ?l (ask c_pos) ?l => apply rel_getPos
  | |- rel ?l curTok ?l => apply rel_curTok
  | |- rel ?l (option_on _) ?l => apply rel_option
  | |- rel ?l (isLetterM _) ?l => apply rel_letter
  | |- rel ?l (ask c_text) ?l => apply rel_text_of
  | |- rel ?l (span _) ?l => apply rel_span
  | |- rel ?l tokStart ?l => apply rel_tokStart; reflexivity
  | |- rel ?l (ask c_tsp) ?l => apply rel_tokStart; reflexivity
  | |- rel ?l (ask c_val) ?l => apply rel_value; reflexivity
  | |- rel ?l (setPos _) ?l => apply rel_setPos
  | |- rel ?l (advance _) ?l => apply rel_advance
  | |- rel ?l toTokenStart ?l => apply rel_toStart; reflexivity
  | |- rel ?l popName ?l => apply rel_pop
  | |- rel ?l (while _ _) ?l => apply rel_while; intros ?
  | |- rel _ (let _ := _ in _) _ => cbv zeta
  | |- rel _ (settokenValue TInteger _) _ => apply rel_integer; reflexivity
  | |- rel _ (settokenValue _ _) _ => apply rel_token; [try discriminate|reflexivity]
  | |- rel _ (setToken _) _ => apply rel_token; [try discriminate|reflexivity]
  | |- rel _ (modify (with_radix _)) _ => apply rel_radix; reflexivity
  | |- rel _ (modify (with_tsp _)) Warm => apply rel_start
  | |- rel ?l (ask _) ?l => apply rel_ask; [reflexivity|let H := fresh in intros ? ? H; flat H; intuition congruence]
  | |- rel ?l (modify _) ?l => apply rel_modify; let H := fresh in let c := fresh in let c' := fresh in intros c c' H;
      rewrite ?(core_nls (R_core H)), ?(core_at (R_core H)), ?(core_bol (R_core H)); try (destruct (0 <=? c_nls c')); flat H; intuition congruence
  | |- rel _ (match ?x with _ => _ end) _ => destruct x
  end.

Ltac head_of t := lazymatch t with ?f _ => head_of f | _ => t end.
Ltac hook := fail.
Section Reuse.
Variable rec : forall A, fn A -> M A.
Definition pre_of A (f : fn A) : lev := match f with FNextToken => Core | FDelim _ _ _ _ _ _ _ | FApply _ _ _ _ _ _ _ => Warm | _ => Clean end.
Definition post_of A (f : fn A) : lev := match f with FApply _ _ _ _ _ _ _ => Warm | _ => Clean end.
Hypothesis H : forall A (f : fn A), rel (pre_of f) (rec f) (post_of f).
Lemma rec_rel A l l' (f : fn A) : below l (pre_of f) = true -> below (post_of f) l' = true -> rel l (rec f) l'.
Proof. intros H1 H2. eapply rel_post; [|exact H2]. eapply rel_pre; [|exact H1]. apply H. Qed.
Ltac next_lev l m :=
  lazymatch m with
  | settokenValue _ _ => constr:(Clean)
  | setToken _ => constr:(Clean)
  | modify (with_radix _) => constr:(Rad)
  | modify (with_tsp _) => constr:(Warm)
  | rec ?f => let p := eval cbn in (post_of f) in p
  | consumeDelimitedString _ _ _ _ _ => constr:(Clean)
  | applyEscapes _ _ _ _ _ => constr:(Warm)
  | handleInterpolation _ _ _ _ => constr:(Warm)
  | consumeRegexp _ => constr:(Clean)
  | _ => l
  end.
Ltac r1 :=
  first [ hook | rel1 |
  lazymatch goal with
  | |- rel _ (rec _) _ => apply rec_rel; reflexivity
  | |- rel ?l (bind ?m _) _ => let k := next_lev l m in apply rel_bind with (l1 := k); [|intros ?]
  | |- rel _ ?m _ => let h := head_of m in progress unfold h
  end].
Ltac r := repeat r1.
Lemma skip_rel l b : rel l (skipWhite b) l.
Proof. destruct l; unfold skipWhite, skipWhite_step; r. Qed.
Lemma kw_not_integer w t : kw_lookup w = Some t -> t <> TInteger.
Proof.
  unfold kw_lookup. assert (K : Forall (fun p => snd p <> TInteger) keywords) by (repeat (apply Forall_cons; [discriminate|]); apply Forall_nil).
  induction K as [|[k u] l Hk _ IH]; cbn [kw_find]; [discriminate|]. destruct (str_eqb _ _); [intros [= <-]; exact Hk|exact IH].
Qed.
Lemma word_rel l s t : below l Warm = true -> t <> TInteger -> rel l (consumeQualifiedName s t) Clean.
Proof.
  intros Hl Ht. unfold consumeQualifiedName. destruct l; try discriminate Hl; r1; try solve [r]. all: r1; [r|]. all: r1; [|r; exact Ht]. all: r1; [r|].
  all: match goal with |- context [kw_lookup ?w] => case_eq (kw_lookup w); [intros u E; apply kw_not_integer in E|intros _] end; [|r; exact Ht].
  all: destruct u; r; try congruence. all: match goal with |- (if ?b then _ else _) <> _ => destruct b; congruence | |- _ => idtac end. Qed.
Lemma delim_rel d s h b e st sg : rel Warm (delim_body rec d s h b e st sg) Clean.
Proof. r. Qed.
Lemma apply_rel e i f b c s sg : rel Warm (apply_body rec e i f b c s sg) Warm.
Proof. r. Qed.
Lemma rel_pair A l (x : A) f t v rdx : below l Warm = true -> f = with_tok t v -> rel l (bind (modify f) (fun _ => modify (with_radix rdx))) Clean.
Proof. intros HB ->. intros c c' HR. apply R_below with (l' := Warm) in HR; [|exact HB]. split; [reflexivity|]. cbn in *. unfold core in *. cbn. intuition. Qed.
Lemma number_rel s : rel Warm (lex_number s) Clean.
Proof. unfold lex_number. r1; [r|]. r1; [r|]. r1. r1; [r|]. r1; [r|]. r1; [r|]. r1; [r|]. eapply (rel_pair 0); reflexivity. Qed.
Lemma zero_rel s : rel Warm (lex_zero s) Clean.
Proof. unfold lex_zero. r. Qed.
(** a loop that reads a token before it stops *)
Definition relv A l (m : M A) (q : A -> lev) : Prop := forall c c', R l c c' ->
  match m c, m c' with
  | Ok a d, Ok a' d' => a = a' /\ R (q a) d d'
  | Err e d, Err e' d' => e = e' /\ core d d'
  | Fuel, Fuel => True
  | _, _ => False
  end.
Lemma relv_bind A B l l1 (m : M A) (k : A -> M B) q : rel l m l1 -> (forall a, relv l1 (k a) q) -> relv l (bind m k) q.
Proof.
  intros Hm HK c c' HR. specialize (Hm c c' HR). unfold both, bind in *. destruct (m c) as [a d|e d|], (m c') as [a' d'|e' d'|]; try contradiction; auto. destruct Hm as [<- Hm]. apply HK; auto.
Qed.
Lemma relv_ret A l (a : A) q : below l (q a) = true -> relv l (ret a) q.
Proof. intros HB c c' HR. split; [reflexivity|]. eapply R_below; eauto. Qed.
Lemma relv_rel A l (m : M A) l1 : rel l m l1 -> relv l m (fun _ => l1).
Proof. intros Hm. exact Hm. Qed.
Lemma relv_issue A l code q : relv l (@issue A code) q.
Proof. intros c c' HR. apply R_core in HR. split; [f_equal; apply HR|exact HR]. Qed.
Lemma loop_exit A B l l1 (b : A -> M (A + B)) n : (forall a, relv l (b a) (fun x => match x with inl _ => l | inr _ => l1 end)) -> forall a, rel l (loop n b a) l1.
Proof.
  intros HB. induction n as [|n IH]; intros a; [apply rel_fuel|]. cbn [loop]. intros c c' HR. specialize (HB a c c' HR). unfold both, bind in *.
  destruct (b a c) as [x d|e d|], (b a c') as [x' d'|e' d'|]; try contradiction; auto. destruct HB as [<- HB]. destruct x as [a'|x]; [apply IH, HB|]. split; auto.
Qed.
Lemma while_exit A B l l1 (b : A -> M (A + B)) : (forall a, relv l (b a) (fun x => match x with inl _ => l | inr _ => l1 end)) -> forall a, rel l (while b a) l1.
Proof.
  intros HB a c c' HR. unfold while. assert (loop_fuel c = loop_fuel c') as E by (unfold loop_fuel; do 3 f_equal; apply (R_core HR)).
  unfold both. rewrite <- E. apply (loop_exit _ HB a HR).
Qed.
Ltac v1 :=
  cbv beta iota;
  lazymatch goal with
  | |- relv ?l (bind (match _ with [] => _ | _ => _ end) _) _ => apply relv_bind with (l1 := Clean); [solve [r]|intros ?]
  | |- relv ?l (bind ?m _) _ => let k := next_lev l m in apply relv_bind with (l1 := k); [solve [r]|intros ?]
  | |- relv _ (let _ := _ in _) _ => cbv zeta
  | |- relv _ (ret _) _ => apply relv_ret; reflexivity
  | |- relv _ (issue _) _ => apply relv_issue
  | |- relv _ (match ?x with _ => _ end) _ => destruct x
  end.
Lemma epp_rel : rel Warm (consumeEPP rec) Clean.
Proof.
  unfold consumeEPP. apply rel_bind with (l1 := Clean); [|intros [|]; r]. apply while_exit. intros [buf n]. unfold epp_step. repeat v1.
Qed.
Lemma rel_text t v : t = TEnd \/ t = TRenderString -> rel Core (settokenValue t v) Text.
Proof. intros Ht. apply rel_modify. intros c c' HR. cbn in *. unfold core in *. cbn. intuition. Qed.
Lemma epp_first : rel Core (while epp_step ([], 0)) Text.
Proof.
  apply while_exit. intros [buf n]. unfold epp_step. repeat first [
    lazymatch goal with
    | |- relv Core (bind (settokenValue _ _) _) _ => apply relv_bind with (l1 := Text); [apply rel_text; auto|intros ?]
    | |- relv Core (bind (match _ with [] => setToken _ | _ => _ end) _) _ => apply relv_bind with (l1 := Text); [destruct buf; apply rel_text; auto|intros ?]
    end | v1].
Qed.
Lemma flags_rel l s f : rel l (extract_flags s f) l.
Proof. induction f as [|x f IH]; cbn [extract_flags]; destruct l; r; exact IH. Qed.
Lemma token_rel a b c : rel Warm (lex_token rec a b c) Clean.
Proof.
  unfold lex_token. repeat (lazymatch goal with |- rel _ (if ?b then _ else _) _ => destruct b end; [try solve [r|apply number_rel|apply zero_rel|apply word_rel; [reflexivity|discriminate]]|]).
  all: try solve [r|apply number_rel|apply zero_rel|apply word_rel; [reflexivity|discriminate]].
  - r. destruct (tok_eqb a0 TQmark); discriminate.
  - r. destruct (_ || _); discriminate.
  - unfold lex_paren. r. destruct (_ =? b); discriminate.
  - unfold lex_colon. r1; [r|]. r1; [r|]. r1. r1; [|r]. r1; [r|]. r1; [r|]. r1. r1; [apply word_rel; [reflexivity|discriminate]|]. r1; [apply word_rel; [reflexivity|discriminate]|]. r.
  - unfold lex_minus. r1; [r|]. r1. r1; [r|]. r1; [r|]. r1; [r|]. r1; [|r]. r1; [r|]. r1; [r|]. r1. r1; [|r]. r1; [r|]. r1; [r|]. r1. r1. r1; [r|]. apply epp_rel.
  - unfold lex_at. r1; [r|]. r1. r1; [r|]. r1; [|r]. r1; [r|]. unfold consumeHeredocString. r. fold extract_flags. apply flags_rel.
  - unfold lex_variable. r1; [r|]. r1. r1; [r|]. r1. r1; [|r]. r1; [r|]. apply word_rel; [reflexivity|discriminate].
Qed.
Lemma next_rel : rel Core (nextToken_body rec) Clean.
Proof. unfold nextToken_body. r1; [r|]. r1; [apply skip_rel|]. r1. r1; [r|]. apply token_rel. Qed.
Lemma cur_rel A l (k : tok -> M A) : (forall t, t <> TInteger -> rel Clean (k t) l) -> rel Full (k TInteger) l -> rel Clean (bind curTok k) l.
Proof.
  intros H1 H2 c c' HR. pose proof (R_core HR) as (_ & _ & _ & _ & E & _). unfold both, bind, curTok, ask. rewrite <- E.
  destruct (tok_eqb_spec (c_tok c) TInteger) as [K|K]; [|apply H1; auto]. rewrite K. apply H2. cbn in *. intuition.
Qed.
Lemma unary_rel : rel Clean (unary_body rec) Clean.
Proof.
  unfold unary_body. r1; [r|]. r1; [r|]. destruct a0; try solve [r]. r1; [r|]. r1. r1; [|r]. r1; [r|]. apply cur_rel.
  - intros t Ht. r1; [r|]. destruct (tok_eqb_spec t TInteger); [congruence|]. r; congruence.
  - r1; [r|]. change (tok_eqb TInteger TInteger) with true. cbv iota. apply rel_bind with (l1 := Clean); [|intros ?; r]. r.
Qed.
Lemma atom_rel : rel Clean (atom_body rec) Clean.
Proof.
  unfold atom_body. r1; [r|]. apply cur_rel.
  - intros t Ht. r1; [r|]. destruct t; try solve [r]; congruence.
  - r.
Qed.
Lemma commas_rel es : rel Clean (check_commas es) Clean.
Proof. induction es as [|e es IH]; cbn [check_commas]; [r|]. destruct e; try exact IH. r. Qed.
Lemma calls_rel es : rel Clean (transformCalls es) Clean.
Proof. unfold transformCalls. r1; [r|]. destruct (transform_from _ _) as [x y]. r1; [|r]. destruct y; [apply commas_rel|r]. Qed.
Lemma string_rel : rel Clean tokenString Clean.
Proof. unfold tokenString. r. Qed.
Ltac hook ::= lazymatch goal with
  | |- rel _ (unary_body _) _ => apply unary_rel
  | |- rel _ (atom_body _) _ => apply atom_rel
  | |- rel _ (skipWhite _) _ => apply skip_rel
  | |- rel _ (transformCalls _) _ => apply calls_rel
  | |- rel _ (tokenString) _ => apply string_rel
  end.
Lemma ident_rel : rel Clean (identifier rec) Clean.
Proof. unfold identifier. r. Qed.
Ltac hook ::= lazymatch goal with
  | |- rel _ (unary_body _) _ => apply unary_rel
  | |- rel _ (atom_body _) _ => apply atom_rel
  | |- rel _ (skipWhite _) _ => apply skip_rel
  | |- rel _ (transformCalls _) _ => apply calls_rel
  | |- rel _ (tokenString) _ => apply string_rel
  | |- rel _ (identifier _) _ => apply ident_rel
  end.
Lemma attr_rel : rel Clean (attributeOperation rec) Clean.
Proof. unfold attributeOperation. r. Qed.
Ltac hook ::= lazymatch goal with
  | |- rel _ (unary_body _) _ => apply unary_rel
  | |- rel _ (atom_body _) _ => apply atom_rel
  | |- rel _ (skipWhite _) _ => apply skip_rel
  | |- rel _ (transformCalls _) _ => apply calls_rel
  | |- rel _ (tokenString) _ => apply string_rel
  | |- rel _ (identifier _) _ => apply ident_rel
  | |- rel _ (attributeOperation _) _ => apply attr_rel
  end.
Lemma mapping_rel e t : rel Clean (capabilityMapping rec e t) Clean.
Proof. unfold capabilityMapping. r. Qed.
Lemma collect_rel e : rel Clean (collectExpression rec e) Clean.
Proof. unfold collectExpression. r. Qed.
Lemma prop_rel : rel Clean (stepProperty rec) Clean.
Proof. unfold stepProperty. r. Qed.
Lemma param_rel : rel Clean (parameter rec) Clean.
Proof. unfold parameter. r. Qed.
Ltac hook ::= lazymatch goal with
  | |- rel _ (unary_body _) _ => apply unary_rel
  | |- rel _ (atom_body _) _ => apply atom_rel
  | |- rel _ (skipWhite _) _ => apply skip_rel
  | |- rel _ (transformCalls _) _ => apply calls_rel
  | |- rel _ (tokenString) _ => apply string_rel
  | |- rel _ (identifier _) _ => apply ident_rel
  | |- rel _ (attributeOperation _) _ => apply attr_rel
  | |- rel _ (capabilityMapping _ _ _) _ => apply mapping_rel
  | |- rel _ (collectExpression _ _) _ => apply collect_rel
  | |- rel _ (stepProperty _) _ => apply prop_rel
  | |- rel _ (parameter _) _ => apply param_rel
  end.
Lemma body_rel A (f : fn A) : rel (pre_of f) (body rec f) (post_of f).
Proof. destruct f; cbn [body pre_of post_of]; try apply next_rel. all: r. Qed.
Ltac hook ::= lazymatch goal with
  | |- rel _ (skipWhite _) _ => apply skip_rel
  | |- rel _ (transformCalls _) _ => apply calls_rel
  | |- rel _ (tokenString) _ => apply string_rel
  | |- rel _ (identifier _) _ => apply ident_rel
  | |- rel _ (parameter _) _ => apply param_rel
  end.
Lemma cur_text A l (k : tok -> M A) : rel Text (k TEnd) l -> rel Text (k TRenderString) l -> rel Text (bind curTok k) l.
Proof.
  intros H1 H2 c c' HR. pose proof (R_core HR) as (_ & _ & _ & _ & E & _). unfold both, bind, curTok, ask. rewrite <- E.
  destruct (proj2 (proj2 HR)) as [K|K]; rewrite K; [exact (H1 c c' HR)|exact (H2 c c' HR)].
Qed.
Lemma string_text : rel Text tokenString Text.
Proof.
  unfold tokenString. apply rel_bind with (l1 := Text); [apply rel_ask; [reflexivity|]; intros c c' HR; apply HR|]. intros [| | | | | |]; try apply rel_throw; try apply rel_ret; try reflexivity.
  apply rel_ask; [reflexivity|]. intros c c' HR. f_equal. apply (R_core HR).
Qed.
Lemma both_or A (m : M A) (P Q : ctx -> ctx -> Prop) c c' : both m m P c c' -> (forall d d', P d d' -> Q d d') -> both m m Q c c'.
Proof. unfold both. intros H1 H2. destruct (m c), (m c'); intuition. Qed.
Lemma both_cur A (k : tok -> M A) Q d d' t : c_tok d = t -> c_tok d' = t -> both (k t) (k t) Q d d' -> both (bind curTok k) (bind curTok k) Q d d'.
Proof. intros <- E. unfold both, bind, curTok, ask. now rewrite E. Qed.
Lemma both_ret A B (a : A) (k : A -> M B) Q d d' : both (k a) (k a) Q d d' -> both (bind (ret a) k) (bind (ret a) k) Q d d'.
Proof. auto. Qed.
Lemma top_rel single : rel Core (parseTop rec single) Core.
Proof.
  unfold parseTop. r1; [r|]. r1; [|r].
  unfold consumeEPP. intros c c' HR. apply both_bind with (P := fun d d' => R Clean d d' \/ R Text d d').
  - apply both_bind with (P := R Text); [exact (epp_first HR)|]. intros [|] d d' HD.
    + eapply both_or; [|intros ? ? X; left; exact X]. apply rec_rel with (l := Text); [reflexivity|reflexivity|exact HD].
    + split; [reflexivity|right; exact HD].
  - intros _ d d' [HD|HD]; revert d d' HD.
    + change (rel Clean (bind curTok (fun cur : tok =>
        bind (if tok_eqb cur TRenderString then bind tokenString (fun s => bind (rec FNextToken) (fun _ => ret s)) else ret []) (fun text =>
        bind curTok (fun cur0 => if tok_eqb cur0 TEnd then bind (span 0) (fun p => asEppLambda (ERenderString p text))
          else if tok_eqb cur0 TPipe then match text with
            | [] => bind (lambdaParameterList rec) (fun params => bind (rec FNextToken) (fun _ => bind (rec (FParse TEnd false)) (fun b => bind (span 0) (fun p => asEppLambda (eppLambda params b p)))))
            | _ :: _ => issue PARSE_ILLEGAL_EPP_PARAMETERS end
          else bind tokStart (fun ts => rec (FEppLoop match text with [] => [] | _ => [ERenderString (mkpos 0 ts) text] end)))))) Core).
      r.
    + intros d d' HD. pose proof (R_core HD) as (_ & _ & _ & _ & E & _). destruct (proj2 (proj2 HD)) as [K|K]; assert (K' : c_tok d' = c_tok d) by auto; rewrite K in K'.
      * eapply both_cur; [exact K|exact K'|]. change (tok_eqb TEnd TRenderString) with false. cbv iota. apply both_ret. eapply both_cur; [exact K|exact K'|].
        change (tok_eqb TEnd TEnd) with true. cbv iota. revert d d' HD E K K'. intros d d' HD _ _ _. revert d d' HD.
        change (rel Text (bind (span 0) (fun p => asEppLambda (ERenderString p []))) Core). r.
      * eapply both_cur; [exact K|exact K'|]. change (tok_eqb TRenderString TRenderString) with true. cbv iota. apply both_bind with (P := R Clean).
        -- assert (X : rel Text (bind tokenString (fun s => bind (rec FNextToken) (fun _ => ret s))) Clean) by (apply rel_bind with (l1 := Text); [apply string_text|intros ?; r]). exact (X d d' HD).
        -- intros text. change (rel Clean (bind curTok (fun cur : tok => if tok_eqb cur TEnd then bind (span 0) (fun p => asEppLambda (ERenderString p text))
          else if tok_eqb cur TPipe then match text with
            | [] => bind (lambdaParameterList rec) (fun params => bind (rec FNextToken) (fun _ => bind (rec (FParse TEnd false)) (fun b => bind (span 0) (fun p => asEppLambda (eppLambda params b p)))))
            | _ :: _ => issue PARSE_ILLEGAL_EPP_PARAMETERS end
          else bind tokStart (fun ts => rec (FEppLoop match text with [] => [] | _ => [ERenderString (mkpos 0 ts) text] end)))) Core). r.
Qed.
End Reuse.
Lemma run_rel n A (f : fn A) : rel (pre_of f) (run n f) (post_of f).
Proof. revert A f. induction n as [|n IH]; intros A f; [apply rel_fuel|]. cbn [run]. apply body_rel. exact IH. Qed.
(** what a parser keeps from one call of Parse to the next *)
Definition carried (c : ctx) : opts * list str * tok * Z := (c_opts c, c_names c, c_tok c, c_bol c).
Theorem parse_same n c c' source single : carried c = carried c' ->
  match parse_run n c source single, parse_run n c' source single with
  | Ok e d, Ok e' d' => e = e' /\ carried d = carried d'
  | Err e d, Err e' d' => e = e' /\ carried d = carried d'
  | Fuel, Fuel => True
  | _, _ => False
  end.
Proof.
  intros HC. unfold carried in HC. injection HC as H1 H2 H3 H4.
  assert (HR : R Core (start_ctx source c) (start_ctx source c')) by (cbn; unfold core; cbn; tauto).
  pose proof (@top_rel (run n) (run_rel n) single _ _ HR) as HT. unfold both, parse_run in *.
  destruct (parseTop _ _ (start_ctx source c)) as [e d|e d|], (parseTop _ _ (start_ctx source c')) as [e' d'|e' d'|]; try contradiction; auto;
    destruct HT as [<- (X1 & X2 & X3 & X4 & X5 & X6 & X7 & X8)]; unfold carried; (split; [rewrite ?X3, ?X8; reflexivity|congruence]).
Qed.

(** ** A text of one line leaves the start of the line alone *)
Definition keeps A (m : M A) : Prop := forall c, ~ In 10 (c_text c) ->
  match m c with Ok _ d | Err _ d => c_text d = c_text c /\ c_bol d = c_bol c | Fuel => True end.
Definition frame A (m : M A) : Prop := forall c, match m c with Ok _ d | Err _ d => c_text d = c_text c /\ c_bol d = c_bol c | Fuel => True end.
Lemma keeps_bind A B (m : M A) (k : A -> M B) : keeps m -> (forall a, keeps (k a)) -> keeps (bind m k).
Proof.
  intros Hm Hk c Hc. specialize (Hm c Hc). unfold bind. destruct (m c) as [a d|e d|]; auto. destruct Hm as [H1 H2]. specialize (Hk a d). rewrite H1 in Hk. specialize (Hk Hc).
  destruct (k a d) as [? x|? x|]; intuition congruence.
Qed.
Lemma keeps_frame A (m : M A) : frame m -> keeps m.
Proof. intros H c _. apply H. Qed.
Lemma keeps_loop A B n (b : A -> M (A + B)) : (forall a, keeps (b a)) -> forall a, keeps (loop n b a).
Proof.
  intros H. induction n as [|n IH]; intros a; [intros c Hc; exact Logic.I|]. cbn [loop]. apply keeps_bind; [apply H|]. intros [a'|x]; [apply IH|intros c Hc; cbn; auto].
Qed.
Lemma keeps_while A B (b : A -> M (A + B)) a : (forall a, keeps (b a)) -> keeps (while b a).
Proof. intros H c Hc. unfold while. now apply keeps_loop. Qed.
Lemma frame_ret A (a : A) : frame (ret a). Proof. intros c. cbn. auto. Qed.
Lemma frame_ask A (f : ctx -> A) : frame (ask f). Proof. intros c. cbn. auto. Qed.
Lemma frame_throw A e : frame (@throw A e). Proof. intros c. cbn. auto. Qed.
Lemma frame_issue A e a : frame (@issue2 A e a). Proof. intros c. cbn. auto. Qed.
Lemma frame_peek : frame peek. Proof. intros c. unfold peek. destruct (rune_at _ _); auto. Qed.
Lemma frame_peekAt p : frame (peekAt p). Proof. intros c. unfold peekAt. destruct (p <? 0); auto. destruct (rune_at _ _); auto. Qed.
Lemma frame_next : frame next. Proof. intros c. unfold next. destruct (rune_at _ _) as [[? ?]|]; cbn; auto. Qed.
Lemma frame_from p : frame (from p). Proof. intros c. unfold from. destruct (_ && _); auto. Qed.
Lemma frame_pop : frame popName. Proof. intros c. unfold popName. destruct (c_names c); cbn; auto. Qed.
Lemma frame_modify f : (forall c, c_text (f c) = c_text c /\ c_bol (f c) = c_bol c) -> frame (modify f).
Proof. intros H c. apply H. Qed.
Lemma no_newline p c r w : ~ In 10 (c_text c) -> rune_at p c = inl (r, w) -> r <> 10.
Proof.
  intros Hc. unfold rune_at. destruct (len c <=? p); [intros [= <- <-]; lia|]. destruct (p <? 0); [discriminate|].
  pose proof (firstn_skipn (Z.to_nat p) (c_text c)) as HF. destruct (skipn (Z.to_nat p) (c_text c)) as [|b t] eqn:Es; [intros [= <- <-]; lia|].
  assert (Hin : In b (c_text c)) by (rewrite <- HF; apply in_or_app; right; left; reflexivity).
  destruct (b <? 128) eqn:Eb; [intros [= <- <-] ->; auto|]. destruct (decode_rune (b :: t)) as [q v] eqn:Ed. destruct (q =? rune_error) eqn:Eq; [discriminate|]. intros [= <- <-] ->.
  unfold decode_rune in Ed. rewrite Eb in Ed. unfold is_cont in Ed. change rune_error with 65533 in Ed. clear - Eb Ed.
  repeat lazymatch type of Ed with
    | (65533, _) = _ => discriminate Ed
    | (if ?x then _ else _) = _ => destruct x eqn:?
    | (let _ := _ in _) = _ => cbv zeta in Ed
    | (match ?x with _ => _ end) = _ => destruct x
    end; injection Ed as Ed _; repeat match goal with E : context [if ?x then _ else _] |- _ => destruct x eqn:? end; lia.
Qed.
Lemma keeps_next B (k : Z * Z -> M B) : (forall r p, r <> 10 -> keeps (k (r, p))) -> keeps (bind next k).
Proof.
  intros H c Hc. unfold bind, next. destruct (rune_at (c_pos c) c) as [[r w]|] eqn:E; [|auto]. apply no_newline in E; [|exact Hc].
  specialize (H r (c_pos c) E (with_pos (c_pos c + w) c) Hc). cbn [with_pos c_text c_bol] in H. exact H.
Qed.
Ltac hook ::= fail.
Ltac k1 :=
  cbv beta iota;
  first [hook | lazymatch goal with
  | |- keeps (bind _ _) => apply keeps_bind; [|intros ?]
  | |- keeps (ret _) => apply keeps_frame, frame_ret
  | |- keeps (ask _) => apply keeps_frame, frame_ask
  | |- keeps (throw _) => apply keeps_frame, frame_throw
  | |- keeps (issue2 _ _) => apply keeps_frame, frame_issue
  | |- keeps peek => apply keeps_frame, frame_peek
  | |- keeps (peekAt _) => apply keeps_frame, frame_peekAt
  | |- keeps next => apply keeps_frame, frame_next
  | |- keeps (from _) => apply keeps_frame, frame_from
  | |- keeps popName => apply keeps_frame, frame_pop
  | |- keeps (modify _) => apply keeps_frame, frame_modify; intros ?; try (destruct (0 <=? _)); split; reflexivity
  | |- keeps (while _ _) => apply keeps_while; intros ?
  | |- keeps (let _ := _ in _) => cbv zeta
  | |- keeps (match ?x with _ => _ end) => destruct x
  | |- keeps ?m => let h := head_of m in progress unfold h
  end].
Ltac k := repeat k1.
Lemma keeps_skip b : keeps (skipWhite b).
Proof.
  unfold skipWhite. apply keeps_while. intros [cs csp]. unfold skipWhite_step. apply keeps_next. intros r p Hr. k1; [k|]. destruct (r =? 10) eqn:E; [lia|]. k.
Qed.
Lemma keeps_flags s f : keeps (extract_flags s f).
Proof. induction f as [|x f IH]; cbn [extract_flags]; k; exact IH. Qed.
Lemma keeps_commas es : keeps (check_commas es).
Proof. induction es as [|e es IH]; cbn [check_commas]; [k|]. destruct e; try exact IH. k. Qed.
Ltac hook ::= lazymatch goal with
  | |- keeps (skipWhite _) => apply keeps_skip
  | |- keeps (extract_flags _ _) => apply keeps_flags
  | |- keeps (check_commas _) => apply keeps_commas
  | H : forall A (f : fn A), keeps (?rec A f) |- keeps (?rec _ _) => apply H
  end.
Section Keeps.
Variable rec : forall A, fn A -> M A.
Hypothesis H : forall A (f : fn A), keeps (rec f).
Lemma keeps_string : keeps tokenString.
Proof. k. Qed.
Lemma keeps_ident : keeps (identifier rec).
Proof. k. Qed.
Lemma keeps_word a b : keeps (consumeQualifiedName a b).
Proof. k. Qed.
Lemma keeps_epp : keeps (consumeEPP rec).
Proof. k. Qed.
Lemma keeps_attr : keeps (attributeOperation rec).
Proof. k. Qed.
Lemma keeps_interp n : keeps (interpolate rec n).
Proof. k. Qed.
Lemma keeps_body A (f : fn A) : keeps (body rec f).
Proof.
  destruct f; cbn [body]. all: k.
Qed.
Lemma keeps_top single : keeps (parseTop rec single).
Proof. k. Qed.
End Keeps.
Lemma keeps_run n A (f : fn A) : keeps (run n f).
Proof. revert A f. induction n as [|n IH]; intros A f; [intros c Hc; exact Logic.I|]. cbn [run]. now apply keeps_body. Qed.

(** ** After a success the current token is the end *)
Definition stops_at A (m : M A) (t : tok) : Prop := forall c a d, m c = Ok a d -> c_tok d = t.
Lemma stops_bind A B (m : M A) (k : A -> M B) t : (forall a, stops_at (k a) t) -> stops_at (bind m k) t.
Proof. intros H c b d. unfold bind. destruct (m c) as [a c1|e c1|]; try discriminate. apply H. Qed.
Lemma stops_cur A (k : tok -> M A) t u : (forall c a d, c_tok c = u -> k u c = Ok a d -> c_tok d = t) -> (forall v, v <> u -> stops_at (k v) t) -> stops_at (bind curTok k) t.
Proof. intros H1 H2 c a d. unfold bind, curTok, ask. destruct (tok_eqb_spec (c_tok c) u) as [E|E]; [rewrite E; apply H1, E|apply H2, E]. Qed.
Lemma statements_stop n e acc : stops_at (run n (FStatements e acc)) e.
Proof.
  revert acc. induction n as [|n IH]; intros acc; [intros c a d; discriminate|]. cbn [run body]. unfold statements_body. apply stops_cur with (u := e).
  - intros c a d E. rewrite tok_eqb_refl. intros [= <- <-]. exact E.
  - intros v Hv. destruct (tok_eqb_spec v e) as [X|_]; [congruence|]. apply stops_bind. intros x. apply stops_bind. intros cur. apply stops_bind. intros _. apply IH.
Qed.
Lemma commas_same es c a d : check_commas es c = Ok a d -> d = c.
Proof.
  revert c a d. induction es as [|e es IH]; intros c a d; cbn [check_commas]; [intros [= _ <-]; reflexivity|]. destruct e; try apply IH. destruct elements; [discriminate|].
  unfold bind, ask, of_sum. destruct (lineForOffset _ _); [|discriminate]. cbn. destruct (posOnLine _ _); discriminate.
Qed.
Lemma calls_same es c a d : transformCalls es c = Ok a d -> d = c.
Proof.
  unfold transformCalls. destruct es as [|e es]; [intros [= _ <-]; reflexivity|]. destruct (transform_from e es) as [x [|]]; unfold bind, ret.
  - destruct (check_commas x c) as [? d1|? d1|] eqn:E; try discriminate. intros [= _ <-]. eapply commas_same; eauto.
  - intros [= _ <-]. reflexivity.
Qed.
Lemma parse_stop n e single : stops_at (run n (FParse e single)) e.
Proof.
  destruct n as [|n]; [intros c a d; discriminate|]. cbn [run body]. unfold parse_body. apply stops_bind. intros [r st]. apply stops_bind. intros _. destruct single.
  - apply stops_cur with (u := e).
    + intros c a d E. rewrite tok_eqb_refl. intros [= <- <-]. exact E.
    + intros v Hv. destruct (tok_eqb_spec v e) as [X|_]; [congruence|]. apply stops_bind. intros x c a d. unfold bind, assertToken, curTok, ask. unfold bind.
      destruct (tok_eqb_spec (c_tok c) e) as [X|_]; cbn; [intros [= <- <-]; exact X|discriminate].
  - intros c a d. unfold bind at 1. destruct (run n (FStatements e []) c) as [es c1|x c1|] eqn:E; try discriminate. apply statements_stop in E. unfold bind, span, ask, ret.
    destruct (transformCalls es c1) as [ss c2|x c2|] eqn:E2; try discriminate. apply calls_same in E2. intros [= _ <-]. congruence.
Qed.
Lemma lambda_same e c a d : asEppLambda e c = Ok a d -> d = c.
Proof.
  unfold asEppLambda, bind, span, ask, ret. intros H.
  repeat lazymatch type of H with (match ?x with _ => _ end) _ = _ => destruct x end; injection H as _ H; auto.
Qed.
Lemma eppLoop_stop n acc : stops_at (run n (FEppLoop acc)) TEnd.
Proof.
  revert acc. induction n as [|n IH]; intros acc; [intros c a d; discriminate|]. cbn [run body]. unfold eppLoop_body. apply stops_cur with (u := TEnd).
  - intros c a d E. rewrite tok_eqb_refl. unfold bind, span, ask. destruct (transformCalls acc c) as [ss c2|x c2|] eqn:E2; try discriminate. apply calls_same in E2. intros K. apply lambda_same in K. congruence.
  - intros v Hv. destruct (tok_eqb_spec v TEnd) as [X|_]; [congruence|]. apply stops_bind. intros x. apply IH.
Qed.
Lemma top_stop n single : stops_at (parseTop (run n) single) TEnd.
Proof.
  unfold parseTop. apply stops_bind. intros [|]; [|apply stops_bind; intros _; apply parse_stop].
  apply stops_bind. intros _. apply stops_bind. intros cur. apply stops_bind. intros text. apply stops_cur with (u := TEnd).
  - intros c a d E. rewrite tok_eqb_refl. unfold bind, span, ask. intros K. apply lambda_same in K. congruence.
  - intros v Hv. destruct (tok_eqb_spec v TEnd) as [X|_]; [congruence|]. destruct (tok_eqb v TPipe).
    + destruct text; [|intros c a d; discriminate]. apply stops_bind. intros params. apply stops_bind. intros _. intros c a d. unfold bind at 1.
      destruct (run n (FParse TEnd false) c) as [b c1|x c1|] eqn:E; try discriminate. apply parse_stop in E. unfold bind, span, ask. intros K. apply lambda_same in K. congruence.
    + apply stops_bind. intros ts. apply eppLoop_stop.
Qed.
Lemma parsed_stop n c source single e d : parse_run n c source single = Ok e d -> c_tok d = TEnd.
Proof.
  unfold parse_run. destruct (parseTop (run n) single (start_ctx source c)) as [x c1|x c1|] eqn:E; try discriminate. intros [= _ <-]. eapply top_stop; eauto.
Qed.
Lemma parsed_line n c source single e d : ~ In 10 source -> parse_run n c source single = Ok e d -> c_bol d = c_bol c.
Proof.
  intros Hn. unfold parse_run. pose proof (@keeps_top (run n) (keeps_run n) single (start_ctx source c) Hn) as HK.
  destruct (parseTop (run n) single (start_ctx source c)) as [x c1|x c1|]; try discriminate. intros [= _ <-]. apply HK.
Qed.
Lemma history_state o c : one_line_history o c -> parser_state o c.
Proof. induction 1; [constructor|econstructor; eassumption]. Qed.
Lemma history_carried o c : one_line_history o c -> carried c = carried (createParser o).
Proof.
  induction 1 as [|c n source single e c' HH IH Hn HP]; [reflexivity|].
  pose proof (history_state HH) as HS. pose proof (parsed_names HS HP) as E1. pose proof (parsed_stop HP) as E2. pose proof (parsed_line Hn HP) as E3.
  assert (E4 : c_opts c' = o) by (apply (@parser_state_gate o c'); econstructor; eassumption).
  unfold carried in *. injection IH as I1 I2 I3 I4. rewrite E1, E2, E3, E4, I2, I4. reflexivity.
Qed.
Theorem like_new o c n source single : one_line_history o c -> to_presult (parse_run n c source single) = parse n o source single.
Proof.
  intros H. pose proof (@parse_same n _ _ source single (history_carried H)) as K. unfold parse.
  destruct (parse_run n c source single), (parse_run n (createParser o) source single); try contradiction; try reflexivity; destruct K as [-> _]; reflexivity.
Qed.
Theorem calls_same_history n c c' l : carried c = carried c' -> calls n c l = calls n c' l.
Proof.
  revert c c'. induction l as [|[source single] l IH]; intros c c' HC; [reflexivity|]. cbn [calls]. pose proof (@parse_same n _ _ source single HC) as K.
  destruct (parse_run n c source single), (parse_run n c' source single); try contradiction; try reflexivity; destruct K as [-> K]; f_equal; apply IH, K.
Qed.
