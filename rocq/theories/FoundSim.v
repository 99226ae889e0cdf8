(** * FoundSim: what an error says it found stands at the place it reports *)
From Verif Require Import Base Utf8Facts Float Tokens Ast Ctx Locator Lexer Parser SpecOptions SpecFound.
From Coq Require Import Lia ZifyBool.

Lemma rune_is p c r w : rune_at p c = inl (r, w) -> 0 <= r < 128 ->
  (r = 0 /\ skipn (Z.to_nat p) (c_text c) = []) \/ (0 <= p /\ w = 1 /\ exists y, skipn (Z.to_nat p) (c_text c) = r :: y).
Proof.
  intros H Hr. unfold rune_at in H. destruct (len c <=? p) eqn:El.
  { injection H as <- _. left. split; [reflexivity|]. apply skipn_all2. unfold len, zlen in El. lia. }
  destruct (p <? 0) eqn:Ep; [discriminate|].
  destruct (skipn (Z.to_nat p) (c_text c)) as [|x t] eqn:Es; [injection H as <- _; auto|]. right. split; [lia|].
  destruct (x <? 128) eqn:Ex; [injection H as -> <-; split; [reflexivity|]; now exists t|].
  exfalso. destruct (decode_rune (x :: t)) as [q v] eqn:Ed. destruct (q =? rune_error) eqn:Eq; [discriminate|]. injection H as -> <-.
  unfold decode_rune in Ed. rewrite Ex in Ed. unfold is_cont in Ed. change rune_error with 65533 in Ed. clear - Ex Ed Hr.
  repeat lazymatch type of Ed with
  | (65533, _) = _ => injection Ed as Ed _; lia
  | (if ?x then _ else _) = _ => destruct x eqn:?
  | (let _ := _ in _) = _ => cbv zeta in Ed
  | (match ?x with _ => _ end) = _ => destruct x
  end; injection Ed as Ed _; repeat match goal with E : context [if ?x then _ else _] |- _ => destruct x eqn:? end; lia.
Qed.
Lemma kw_text w t : kw_lookup w = Some t -> existsb (str_eqb (tokenMap t)) kinds = false /\ w = tokenMap t \/ t = TBoolean /\ (w = lit "true" \/ w = lit "false").
Proof.
  unfold kw_lookup, keywords. cbn [kw_find]. intros H.
  repeat lazymatch type of H with
  | (if str_eqb ?w ?l then _ else _) = _ => let E := fresh "E" in destruct (str_eqb w l) eqn:E; [injection H as <-; apply str_eqb_eq in E; first [left; split; [reflexivity|exact E]|right; auto]|]
  end. discriminate H.
Qed.
Lemma own_text t : existsb (str_eqb (tokenMap t)) kinds = false -> ~ In (tokenMap t) kinds.
Proof. intros H K. assert (existsb (str_eqb (tokenMap t)) kinds = true); [|congruence]. apply existsb_exists. exists (tokenMap t). split; [exact K|]. now apply str_eqb_eq. Qed.
Lemma names_differ a b : tok_eqb a b = false -> b <> TWslp -> b <> TLp -> b <> TListstart -> b <> TLb -> differ (tokenMap b) (tokenMap a).
Proof. intros H N1 N2 N3 N4. unfold differ. destruct a, b; try congruence; first [left; discriminate|right; left; reflexivity|right; right; reflexivity|discriminate H]. Qed.

Lemma rune_of p c r w : rune_at p c = inl (r, w) -> Forall byte (c_text c) -> r <> 0 -> leads (encode_rune r) (skipn (Z.to_nat p) (c_text c)).
Proof.
  intros H HB Hr. unfold rune_at in H. destruct (len c <=? p) eqn:El; [injection H as H _; congruence|]. destruct (p <? 0) eqn:Ep; [discriminate|].
  assert (HB' : Forall byte (skipn (Z.to_nat p) (c_text c))).
  { rewrite <- (firstn_skipn (Z.to_nat p)) in HB. apply Forall_app in HB. exact (proj2 HB). }
  destruct (skipn (Z.to_nat p) (c_text c)) as [|x t] eqn:Es; [injection H as H _; congruence|].
  destruct (x <? 128) eqn:Ex.
  - injection H as -> <-. inversion HB' as [|? ? Hb _]. unfold byte in Hb. rewrite encode_ascii by lia. now exists t.
  - destruct (decode_rune (x :: t)) as [q v] eqn:Ed. destruct (q =? rune_error) eqn:Eq; [discriminate|]. injection H as -> <-.
    destruct (@decode_sound _ _ _ HB' Ed) as (_ & _ & E); [discriminate|left; lia|]. eexists. exact E.
Qed.
Lemma rune_text r : ~ In (encode_rune r) kinds.
Proof.
  assert (E : (exists x, encode_rune r = [x]) \/ exists x y, encode_rune r = x :: y /\ 128 <= x).
  { unfold encode_rune. set (q := if valid_rune r then r else rune_error).
    assert (Hq : valid_rune q = true) by (subst q; destruct (valid_rune r) eqn:E; [exact E|reflexivity]).
    replace (if valid_rune r then encode_rune_raw r else encode_rune_raw rune_error) with (encode_rune_raw q) by (subst q; destruct (valid_rune r); reflexivity).
    unfold valid_rune in Hq. unfold encode_rune_raw. destruct (q <? 128) eqn:E1; [left; eauto|]. right.
    pose proof (Z.div_pos q 64). pose proof (Z.div_pos q 4096). pose proof (Z.div_pos q 262144).
    destruct (q <? 2048); [|destruct (q <? 65536)]; eexists; eexists; (split; [reflexivity|lia]). }
  intros H. cbn in H. destruct E as [[x E]|(x & y & E & Hx)]; rewrite E in H; repeat (destruct H as [H|H]; [first [discriminate H | injection H as H _; subst x; vm_compute in Hx; congruence]|]); exact H.
Qed.

Section Found.
Variables (T : str) (o : opts).
Hypothesis Hf : o_factory o = true.
Notation epp := (o_epp o).
Definition rest (p : Z) : str := skipn (Z.to_nat p) T.
Definition closing (t : tok) : Prop := match t with TWslp | TLp | TListstart | TLb => False | _ => True end.
Definition quiet : Prop := Forall byte T /\ ~ contains (lit "type") T.
Definition honest (e : err) : Prop :=
  match e with
  | Issue LEX_UNEXPECTED_TOKEN a off => quiet -> exists found, a = [("token"%string, found)] /\ (found = lit "+" \/ stands epp found (rest off))
  | Issue PARSE_EXPECTED_TOKEN a off =>
    exists expected found, a = [("expected", expected); ("actual", found)]%string /\ stands epp found (rest off) /\ differ expected found
  | Issue PARSE_EXPECTED_ONE_OF_TOKENS a off =>
    exists expected found, a = [("expected"%string, lit "'" ++ lit "," ++ lit "' or '" ++ expected ++ lit "'"); ("actual"%string, found)]
      /\ stands epp found (rest off) /\ found <> lit "," /\ differ expected found
  | _ => True
  end.
Definition based (c : ctx) : Prop := c_text c = T /\ c_opts c = o.
Definition tri A (P : ctx -> Prop) (m : M A) (Q : A -> ctx -> Prop) : Prop :=
  forall c, based c -> P c -> match m c with Ok a d => based d /\ Q a d | Err e _ => honest e | Fuel => True end.
(** a condition on the current token and its place *)
Definition fr (F : tok -> Z -> Prop) (c : ctx) : Prop := F (c_tok c) (c_tsp c).
Definition SpF (t : tok) (s : Z) : Prop := stands epp (tokenMap t) (rest s).
Definition onF (s : Z) (t : tok) (s' : Z) : Prop := s' = s.
Notation Sp := (fr SpF).
Notation on s := (fr (onF s)).
Definition free (c : ctx) : Prop := True.
Notation K F m := (tri (fr F) m (fun _ => fr F)).

Lemma tri_bind A B (P : ctx -> Prop) (m : M A) R (k : A -> M B) Q : tri P m R -> (forall a, tri (R a) (k a) Q) -> tri P (bind m k) Q.
Proof. intros H HK c Hc HP. specialize (H c Hc HP). unfold bind. destruct (m c) as [a d|e d|]; auto. destruct H as [Hd HR]. exact (HK a d Hd HR). Qed.
Lemma tri_weak A (P P' : ctx -> Prop) (m : M A) (Q Q' : A -> ctx -> Prop) : tri P' m Q' -> (forall c, P c -> P' c) -> (forall a c, Q' a c -> Q a c) -> tri P m Q.
Proof. intros H H1 H2 c Hc HP. specialize (H c Hc (H1 c HP)). destruct (m c); auto. destruct H. auto. Qed.
Lemma tri_ret A (P : ctx -> Prop) (a : A) (Q : A -> ctx -> Prop) : (forall c, P c -> Q a c) -> tri P (ret a) Q.
Proof. intros H c Hc HP. cbn. auto. Qed.
Lemma tri_throw A (P : ctx -> Prop) e (Q : A -> ctx -> Prop) : honest e -> tri P (throw e) Q.
Proof. intros H c Hc HP. exact H. Qed.
Lemma tri_issue2 A (P : ctx -> Prop) e a (Q : A -> ctx -> Prop) : (forall c, P c -> honest (Issue e a (c_pos c))) -> tri P (issue2 e a) Q.
Proof. intros H c Hc HP. exact (H c HP). Qed.
Lemma tri_fuel A (P : ctx -> Prop) (Q : A -> ctx -> Prop) : tri P out_of_fuel Q.
Proof. intros c Hc HP. exact Logic.I. Qed.
Lemma tri_ask A (P : ctx -> Prop) (f : ctx -> A) (Q : A -> ctx -> Prop) : (forall c, P c -> Q (f c) c) -> tri P (ask f) Q.
Proof. intros HQ c Hc HP. cbn. auto. Qed.
Lemma bind_ask A B (P : ctx -> Prop) (f : ctx -> A) (k : A -> M B) Q : (forall a, tri (fun c => P c /\ f c = a) (k a) Q) -> tri P (bind (ask f) k) Q.
Proof. intros HK. eapply tri_bind; [apply tri_ask with (Q := fun a c => P c /\ f c = a); auto|exact HK]. Qed.
Lemma tri_modify (P : ctx -> Prop) f (Q : unit -> ctx -> Prop) : (forall c, based c -> P c -> based (f c) /\ Q tt (f c)) -> tri P (modify f) Q.
Proof. intros H c Hc HP. exact (H c Hc HP). Qed.
Lemma tri_loop A B n (b : A -> M (A + B)) (P : ctx -> Prop) : (forall a, tri P (b a) (fun _ => P)) -> forall a, tri P (loop n b a) (fun _ => P).
Proof.
  intros H. induction n as [|n IH]; intros a; [apply tri_fuel|]. cbn [loop]. eapply tri_bind; [apply H|]. intros [a'|x]; [apply IH|apply tri_ret; auto].
Qed.
Lemma tri_while A B (P : ctx -> Prop) (b : A -> M (A + B)) a : (forall a, tri P (b a) (fun _ => P)) -> tri P (while b a) (fun _ => P).
Proof. intros H c Hc HP. unfold while. exact (tri_loop _ H a Hc HP). Qed.
(** after a step that keeps a condition *)
Lemma bind_keep A B F (P : ctx -> Prop) (m : M A) (k : A -> M B) Q : (forall c, P c -> fr F c) -> K F m -> (forall a, tri (fr F) (k a) Q) -> tri P (bind m k) Q.
Proof. intros HP H HK. eapply tri_bind; [eapply tri_weak with (Q := fun _ => fr F); [exact H|exact HP|auto]|exact HK]. Qed.
Lemma bind_option B (P : ctx -> Prop) f (k : bool -> M B) Q : tri P (k (f o)) Q -> tri P (bind (option_on f) k) Q.
Proof. intros H c Hc HP. unfold bind, option_on, ask. pose proof Hc as [_ E]. rewrite E. exact (H c Hc HP). Qed.

Lemma rune_err p c e : rune_at p c = inr e -> honest e.
Proof. intros E. unfold rune_at in E. repeat match type of E with (if ?x then _ else _) = _ => destruct x | match ?x with _ => _ end = _ => destruct x | (let (_, _) := ?x in _) = _ => destruct x end; inversion E; exact Logic.I. Qed.
Lemma peek_keeps F : K F peek.
Proof. intros c Hc HP. unfold peek. destruct (rune_at (c_pos c) c) as [r|e] eqn:E; [auto|]. exact (@rune_err _ _ _ E). Qed.
Lemma peekAt_keeps F p : K F (peekAt p).
Proof. intros c Hc HP. unfold peekAt. destruct (p <? 0); [auto|]. destruct (rune_at p c) as [r|e] eqn:E; [auto|]. exact (@rune_err _ _ _ E). Qed.
Lemma next_keeps F : K F next.
Proof. intros c Hc HP. unfold next. destruct (rune_at (c_pos c) c) as [[r w]|e] eqn:E; [auto|]. exact (@rune_err _ _ _ E). Qed.
Lemma from_keeps F p : K F (from p).
Proof. intros c Hc HP. unfold from. destruct (_ && _); [auto|exact Logic.I]. Qed.
Lemma pop_keeps F : K F popName.
Proof. intros c Hc HP. unfold popName. destruct (c_names c); [exact Logic.I|]. auto. Qed.
Lemma modify_keeps F f : (forall c, based c -> based (f c) /\ c_tok (f c) = c_tok c /\ c_tsp (f c) = c_tsp c) -> K F (modify f).
Proof. intros H. apply tri_modify. intros c Hc HP. destruct (H c Hc) as (H1 & H2 & H3). split; [exact H1|]. unfold fr. rewrite H2, H3. exact HP. Qed.
Lemma tokenString_keeps F : K F tokenString.
Proof. unfold tokenString. apply bind_ask. intros v. destruct v; try (apply tri_throw; exact Logic.I); [apply tri_ask|apply tri_ret]; intros c [H _]; exact H. Qed.
(** the token of a lexer function that leaves the place alone *)
Lemma set_on s t v : tri (on s) (settokenValue t v) (fun _ c => on s c /\ c_tok c = t).
Proof. apply tri_modify. intros c Hc HP. split; [exact Hc|]. split; [exact HP|reflexivity]. Qed.

Ltac head_of m := lazymatch m with ?f _ => head_of f | _ => m end.
Ltac hook := fail.
Ltac same := lazymatch goal with |- K _ (modify _) => apply modify_keeps; let c := fresh in let H := fresh in intros c H; try (destruct (0 <=? c_nls c)); exact (conj H (conj eq_refl eq_refl)) end.
Ltac fine := first [same | exact Logic.I | (intros ? ?; exact Logic.I)].
Ltac frame := lazymatch goal with |- tri (fr ?F) _ _ => idtac | |- tri (fun c => fr ?F c /\ _) _ _ => eapply tri_weak with (P' := fr F); [|let H := fresh in intros ? H; exact (proj1 H)|auto] | |- tri (fun c => (fr ?F c /\ _) /\ _) _ _ => eapply tri_weak with (P' := fr F); [|let H := fresh in intros ? H; exact (proj1 (proj1 H))|auto] end.
Ltac r1 :=
  cbv beta iota;
  first [ hook | lazymatch goal with
  | |- tri _ (throw _) _ => apply tri_throw; exact Logic.I
  | |- tri _ (issue2 _ _) _ => apply tri_issue2; intros ? ?; exact Logic.I
  | |- tri _ (issue ?i) _ => apply tri_issue2; intros ? ?; first [exact Logic.I | repeat match goal with |- context [match ?x with _ => _ end] => destruct x end; exact Logic.I]
  | |- tri (fr _) (ret _) _ => apply tri_ret; let H := fresh in intros ? H; exact H
  | |- K _ peek => apply peek_keeps
  | |- K _ next => apply next_keeps
  | |- K _ (peekAt _) => apply peekAt_keeps
  | |- K _ (from _) => apply from_keeps
  | |- K _ popName => apply pop_keeps
  | |- K _ tokenString => apply tokenString_keeps
  | |- K _ (while _ _) => apply tri_while; intros ?
  | |- K _ (ask _) => apply tri_ask; let H := fresh in intros ? H; exact H
  | |- K _ (modify _) => same
  | |- K (onF _) (settokenValue _ _) => eapply tri_weak; [apply set_on|let H := fresh in intros ? H; exact H|let H := fresh in intros ? ? H; exact (proj1 H)]
  | |- K (onF _) (setToken _) => eapply tri_weak; [apply set_on|let H := fresh in intros ? H; exact H|let H := fresh in intros ? ? H; exact (proj1 H)]
  | |- tri _ (bind (option_on _) _) _ => apply bind_option
  | |- tri _ (let _ := _ in _) _ => cbv zeta
  | |- tri (fr ?G) (bind _ _) _ => eapply bind_keep with (F := G); [let H := fresh in intros ? H; exact H| |intros ?]
  | |- tri _ (if ?x then _ else _) _ => destruct x eqn:?
  | |- tri _ (match ?x with _ => _ end) _ => destruct x eqn:?
  | |- tri _ ?m _ => let h := head_of m in progress unfold h
  end].
Ltac r := repeat r1.

Lemma skip_keeps F b : K F (skipWhite b).
Proof. unfold skipWhite. apply tri_while. intros [cs csp]. unfold skipWhite_step. r. Qed.
Lemma digits_keep F : K F skipDecimalDigits.
Proof. r. Qed.
Lemma letter_keeps F x : K F (isLetterM x).
Proof. r. Qed.
Lemma escape_keeps F h buf ec : K F (handle_escape h buf ec).
Proof. r. Qed.
Lemma indent_keeps F n : K F (stripIndent n).
Proof. r. Qed.
Lemma flags_keep F st f : K F (extract_flags st f).
Proof. induction f as [|x f IH]; cbn [extract_flags]; r; apply IH. Qed.
Lemma value_keeps F : K F value_string.
Proof. r. Qed.

(** ** Reading on from the first byte of a token *)
Definition has (w : str) (s : Z) : Prop := 0 <= s /\ leads w (rest s).
Definition aft (w : str) (s : Z) (c : ctx) : Prop := fr (onF s) c /\ c_pos c = s + zlen w.
Lemma skip_app (w y : str) s t : 0 <= s -> skipn (Z.to_nat s) t = w ++ y -> skipn (Z.to_nat (s + zlen w)) t = y.
Proof.
  intros Hs H. unfold zlen. rewrite Z2Nat.inj_add, Nat2Z.id by lia. rewrite Nat.add_comm.
  assert (E : forall n m (l : str), skipn (n + m) l = skipn n (skipn m l)).
  { intros n m. induction m as [|m IH]; intros l; [now rewrite Nat.add_0_r|]. rewrite Nat.add_succ_r. destruct l; [now rewrite !skipn_nil|exact (IH l)]. }
  rewrite E, H. clear. induction w; [reflexivity|exact IHw].
Qed.
Lemma bind_peek B (P : ctx -> Prop) w s (k : Z * Z -> M B) Q : has w s -> (forall c, P c -> c_pos c = s + zlen w) ->
  (forall c0 sz, (0 < c0 < 128 -> sz = 1 /\ has (w ++ [c0]) s) -> tri P (k (c0, sz)) Q) -> tri P (bind peek k) Q.
Proof.
  intros [Hs [y Hy]] HP HK c Hc H. unfold bind, peek. destruct (rune_at (c_pos c) c) as [[r w']|e] eqn:E; [|exact (@rune_err _ _ _ E)].
  apply (HK r w'); [|exact Hc|exact H]. intros Hr. destruct Hc as [HT _]. rewrite (HP c H) in E. destruct (@rune_is _ _ _ _ E ltac:(lia)) as [[-> _]|(_ & -> & z & Hz)]; [lia|].
  split; [reflexivity|]. split; [exact Hs|]. rewrite HT in Hz. rewrite (@skip_app w y _ _ Hs Hy) in Hz. exists z. unfold rest in Hy |- *. rewrite Hy, Hz, <- app_assoc. reflexivity.
Qed.
Lemma bind_advance B w s sz c0 (k : unit -> M B) Q : sz = 1 -> tri (aft (w ++ [c0]) s) (k tt) Q -> tri (aft w s) (bind (advance sz) k) Q.
Proof.
  intros -> HK. eapply tri_bind with (R := fun _ => aft (w ++ [c0]) s); [|intros []; exact HK]. apply tri_modify. intros c Hc [H1 H2]. split; [exact Hc|]. split; [exact H1|]. cbn [with_pos c_pos]. rewrite H2. unfold zlen. rewrite app_length. cbn [List.length]. lia.
Qed.
Lemma set_sp (P : ctx -> Prop) s t v : (forall c, P c -> fr (onF s) c) -> SpF t s -> tri P (settokenValue t v) (fun _ => Sp).
Proof. intros HP H. apply tri_modify. intros c Hc Hp. split; [exact Hc|]. specialize (HP c Hp). unfold fr, onF in *. cbn. rewrite HP. exact H. Qed.
Lemma own_sp t s w : has w s -> tokenMap t = w -> existsb (str_eqb w) kinds = false -> SpF t s.
Proof. intros [_ H] <- E. apply punctuation_or_keyword; [apply own_text, E|exact H]. Qed.
Lemma choice_sp w s alts dflt c sz : has w s ->
  (0 < c < 128 -> sz = 1 /\ has (w ++ [c]) s) ->
  (forall x t, In (x, t) alts -> 0 < x < 128 /\ tokenMap t = w ++ [x] /\ existsb (str_eqb (w ++ [x])) kinds = false) ->
  tri (aft w s) dflt (fun _ => Sp) -> tri (aft w s) (op_choice alts dflt c sz) (fun _ => Sp).
Proof.
  intros Hw Hc HA HD. induction alts as [|[x t] alts IH]; cbn [op_choice]; [exact HD|]. destruct (c =? x) eqn:E.
  - apply Z.eqb_eq in E as ->. destruct (HA x t (or_introl eq_refl)) as (Hx & Ht & Hk). destruct (Hc Hx) as [-> Hh].
    apply bind_advance with (c0 := x); [reflexivity|]. apply set_sp with (s := s); [intros d [H _]; exact H|]. exact (@own_sp t s _ Hh Ht Hk).
  - apply IH. intros x' t' H. apply HA. now right.
Qed.
Lemma op_sp w s alts dflt : has w s ->
  (forall x t, In (x, t) alts -> 0 < x < 128 /\ tokenMap t = w ++ [x] /\ existsb (str_eqb (w ++ [x])) kinds = false) ->
  tri (aft w s) dflt (fun _ => Sp) -> tri (aft w s) (op_token alts dflt) (fun _ => Sp).
Proof. intros Hw HA HD. unfold op_token. eapply bind_peek; [exact Hw|intros c [_ H]; exact H|]. intros c sz Hc. cbv beta iota. now apply choice_sp. Qed.
Lemma from_word F p : tri (fr F) (from p) (fun w c => fr F c /\ leads w (rest p)).
Proof.
  intros c Hc HP. unfold from. destruct (_ && _); [|exact Logic.I]. split; [exact Hc|]. split; [exact HP|]. destruct Hc as [HT _]. rewrite HT. unfold leads, slice, rest.
  exists (skipn (Z.to_nat (c_pos c - p)) (skipn (Z.to_nat p) T)). symmetry. apply firstn_skipn.
Qed.
Definition headed (t : tok) (s : Z) : Prop :=
  match t with
  | TTypeName => one_of [upper] (rest s) \/ leads (lit "::") (rest s)
  | TIdentifier => one_of [lower] (rest s) \/ leads (lit "::") (rest s)
  | TVariable => leads (lit "$") (rest s)
  | _ => False
  end.
Lemma one_more l l' x : (forall a, In a l -> In a l') -> one_of l x -> one_of l' x.
Proof. intros H (c & r & E & a & b & Hi & Hr). exists c, r. split; [exact E|]. exists a, b. auto. Qed.
Lemma word_sp s t : headed t s -> tri (fr (onF s)) (consumeQualifiedName s t) (fun _ => Sp).
Proof.
  intros H. unfold consumeQualifiedName. eapply bind_keep with (F := onF s); [auto|apply tri_while; intros [a b]; unfold qualifiedName_step; r|]. intros d.
  assert (G : forall (P : ctx -> Prop) v, (forall c, P c -> fr (onF s) c) -> tri P (settokenValue t v) (fun _ => Sp)).
  { intros P v HP. eapply set_sp; [exact HP|]. unfold SpF. destruct t; try contradiction; [now constructor|now constructor|now constructor]. }
  destruct (tok_eqb t TIdentifier) eqn:Et.
  - assert (t = TIdentifier) by (destruct t; try discriminate Et; reflexivity). subst t. replace (tok_eqb TIdentifier TVariable) with false by reflexivity.
    eapply tri_bind; [apply from_word|]. intros w. destruct d.
    { eapply set_sp; [intros c [Hc _]; exact Hc|]. unfold SpF. cbn [headed] in H. apply string_. destruct H as [H|H]; [left|right; exact H]. eapply one_more; [|exact H]. intros a [<-|[]]. cbn. auto. }
    destruct (kw_lookup w) as [k|] eqn:E; [|apply G; intros c [Hc _]; exact Hc].
    assert (D : forall v, k <> TBoolean -> tri (fun c => fr (onF s) c /\ leads w (rest s)) (settokenValue k v) (fun _ => Sp)).
    { intros v Hk c Hc [H1 H2]. refine (@set_sp (fr (onF s)) s k v (fun _ h => h) _ c Hc H1). destruct (@kw_text _ _ E) as [[E1 E2]|[E1 _]]; [|contradiction]. apply punctuation_or_keyword; [apply own_text, E1|]. rewrite <- E2. exact H2. }
    destruct k; try (apply D; discriminate).
    + intros c Hc [H1 H2]. refine (@set_sp (fr (onF s)) s TBoolean _ (fun _ h => h) _ c Hc H1). apply boolean. destruct (@kw_text _ _ E) as [[E1 _]|[_ [-> | ->]]]; [vm_compute in E1; discriminate|now left|now right].
    + apply bind_option. destruct (o_tasks o); [apply D; discriminate|]. apply G. intros c [Hc _]; exact Hc.
  - eapply bind_keep with (F := onF s); [auto|apply from_keeps|]. intros w. apply G. auto.
Qed.

(** ** The functions that reach the parser *)
Definition interpolated (ss : list expr) : Prop := exists l p x, ss = l ++ [EUn p KText x].
Definition segF (s0 : Z) (sg : option (list expr)) (t : tok) (s : Z) : Prop :=
  match sg with Some ((_ :: _) as ss) => interpolated ss | _ => s = s0 end.
Definition anyF (t : tok) (s : Z) : Prop := True.
Definition pre (s0 : Z) A (f : fn A) : ctx -> Prop :=
  match f with
  | FNextToken => fr anyF
  | FDelim _ _ _ _ _ _ sg => fr (segF s0 sg)
  | FApply _ _ _ _ _ _ _ => fr anyF
  | FParse e _ | FExpressions e _ _ => fun c => Sp c /\ closing e
  | _ => Sp
  end.
Definition out (s0 : Z) A (f : fn A) : A -> ctx -> Prop :=
  match f in fn A return A -> ctx -> Prop with
  | FDelim d _ _ _ _ _ sg => fun a c => fr (segF s0 a) c /\ (sg = None -> a = None) /\ (c_tok c = TString \/ d = "/"%ch /\ c_tok c = TDivide)
  | FApply _ _ _ _ _ _ _ => fun _ => fr anyF
  | _ => fun _ => Sp
  end.
Section Rec.
Variable rec : forall A, fn A -> M A.
Hypothesis HR : forall s0 A (f : fn A), tri (pre s0 f) (rec f) (out s0 f).

Lemma to_any (P : ctx -> Prop) c : P c -> fr anyF c.
Proof. intros _. exact Logic.I. Qed.
Lemma next_sp (P : ctx -> Prop) : tri P (rec FNextToken) (fun _ => Sp).
Proof. eapply tri_weak; [apply (@HR 0 _ FNextToken)|apply to_any|auto]. Qed.
Lemma set_any (P : ctx -> Prop) t v : tri P (settokenValue t v) (fun _ => fr anyF).
Proof. apply tri_modify. intros c Hc HP. split; [exact Hc|exact Logic.I]. Qed.
Lemma weak_any A (P : ctx -> Prop) (m : M A) Q : tri (fr anyF) m Q -> tri P m Q.
Proof. intros H. eapply tri_weak; [exact H|apply to_any|auto]. Qed.
Lemma sp_any A (m : M A) : tri (fr anyF) m (fun _ => Sp) -> K anyF m.
Proof. intros H. eapply tri_weak; [exact H|auto|]. intros a c _. exact Logic.I. Qed.
Lemma parse_sp : tri Sp (rec (FParse TRc true)) (fun _ => Sp).
Proof. eapply tri_weak; [apply (@HR 0 _ (FParse TRc true))|intros c H; split; [exact H|exact Logic.I]|auto]. Qed.

Definition text_node (e : expr) (c : ctx) : Prop := exists p x, e = EUn p KText x.
Lemma interpolate_is st : tri (fr anyF) (interpolate rec st) text_node.
Proof.
  unfold interpolate. eapply bind_keep with (F := anyF); [auto|apply peek_keeps|]. intros [c sz]. destruct (c =? "{"%ch).
  - eapply bind_keep with (F := anyF); [auto|r|intros ?]. eapply tri_bind; [apply next_sp|intros ?]. eapply tri_bind; [apply parse_sp|intros e]. apply weak_any.
    eapply bind_keep with (F := anyF); [auto|r|intros p]. eapply bind_keep with (F := anyF); [auto|r|intros e']. apply tri_ret. intros d _. unfold text_node. eauto.
  - eapply bind_keep with (F := anyF); [auto|apply set_any|intros ?]. eapply bind_keep with (F := anyF); [auto|destruct (_ || _); [apply sp_any, next_sp|r]|intros ?].
    eapply bind_keep with (F := anyF); [auto|r|intros t]. destruct (negb _); [r|].
    eapply bind_keep with (F := anyF); [auto|r|intros v]. eapply bind_keep with (F := anyF); [auto|r|intros p]. destruct v; try r. apply tri_ret. intros d _. unfold text_node. eauto.
Qed.
Lemma handle_is (P : ctx -> Prop) st ss buf : tri P (handleInterpolation rec st ss buf) (fun ss' _ => interpolated ss').
Proof.
  apply weak_any. unfold handleInterpolation. eapply bind_keep with (F := anyF); [auto|r|intros t]. eapply bind_keep with (F := anyF); [auto|r|intros p]. cbv zeta.
  eapply tri_bind; [apply interpolate_is|]. intros e c Hc (q & x & ->). cbn. split; [exact Hc|]. unfold interpolated. eauto.
Qed.
Lemma delim_is s0 d ds h b ec st sg : tri (pre s0 (FDelim d ds h b ec st sg)) (delim_body rec d ds h b ec st sg) (out s0 (FDelim d ds h b ec st sg)).
Proof.
  unfold delim_body. cbn [pre]. cbv zeta.
  assert (L : forall sg' buf st' , (sg = None -> sg' = None) -> tri (fr (segF s0 sg')) (bind next (fun '(ec', _) => rec (FDelim d ds h buf ec' st' sg'))) (out s0 (FDelim d ds h b ec st sg))).
  { intros sg' buf st' Hs. eapply bind_keep with (F := segF s0 sg'); [auto|apply next_keeps|]. intros [ec' q]. eapply tri_weak; [apply (@HR s0)|auto|]. intros a c (H1 & H2 & H3). repeat split; auto. }
  destruct (ec =? 0) eqn:E0.
  { destruct (negb (d =? "/"%ch)) eqn:Ed.
    - unfold unterminatedQuote. eapply bind_keep with (F := segF s0 sg); [auto|r|intros ?]. apply tri_issue2. intros; exact Logic.I.
    - eapply tri_bind with (R := fun _ c => fr (segF s0 sg) c /\ c_tok c = TDivide).
      + apply tri_modify. intros c Hc H. split; [exact Hc|]. split; [exact H|reflexivity].
      + intros []. apply tri_ret. intros c [H1 H2]. repeat split; auto. right. split; [|exact H2]. apply Bool.negb_false_iff, Z.eqb_eq in Ed. exact Ed. }
  destruct (ec =? d) eqn:E1.
  { eapply tri_bind with (R := fun _ c => fr (segF s0 sg) c /\ c_tok c = TString).
    - apply tri_modify. intros c Hc H. split; [exact Hc|]. split; [exact H|reflexivity].
    - intros []. apply tri_ret. intros c [H1 H2]. repeat split; auto. }
  destruct (ec =? "\"%ch).
  { eapply bind_keep with (F := segF s0 sg); [auto|apply next_keeps|]. intros [ec2 q]. destruct (ec2 =? 0).
    { unfold unterminatedQuote. eapply bind_keep with (F := segF s0 sg); [auto|r|intros ?]. apply tri_issue2. intros; exact Logic.I. }
    destruct (ec2 =? d); [apply L; auto|]. eapply bind_keep with (F := segF s0 sg); [auto|apply escape_keeps|]. intros buf. apply L; auto. }
  destruct (ec =? "$"%ch); [|apply L; auto]. destruct sg as [ss|]; [|apply L; auto]. eapply tri_bind; [apply handle_is|]. intros ss'.
  eapply tri_bind with (R := fun _ _ => interpolated ss').
  { intros c Hc H. pose proof (@next_keeps anyF c Hc Logic.I) as Hn. destruct (next c); auto. destruct Hn. auto. }
  intros [ec' st']. eapply tri_weak; [apply (@HR s0)|..].
  - intros c H. cbn [pre]. unfold fr, segF. destruct ss'; [destruct H as (l & p & x & E); destruct l; discriminate|exact H].
  - intros a c (H1 & H2 & H3). repeat split; auto. discriminate.
Qed.
Definition seg_start (sg : option (list expr)) : Prop := sg = None \/ sg = Some [].
Lemma delimited_is s0 d ds sg h : seg_start sg ->
  tri (fr (onF s0)) (consumeDelimitedString rec d ds sg h) (fun a c => fr (segF s0 a) c /\ (sg = None -> a = None) /\ (c_tok c = TString \/ d = "/"%ch /\ c_tok c = TDivide)).
Proof.
  intros Hs. unfold consumeDelimitedString. eapply bind_keep with (F := onF s0); [auto|apply next_keeps|]. intros [ec st]. eapply tri_weak; [apply (@HR s0)|..].
  - intros c H. destruct Hs as [-> | ->]; exact H.
  - intros a c H. exact H.
Qed.
Lemma single_sp s : has (lit "'") s -> tri (fr (onF s)) (consumeSingleQuotedString rec) (fun _ => Sp).
Proof.
  intros [_ [y Hy]]. unfold consumeSingleQuotedString. eapply bind_keep with (F := onF s); [auto|r|intros p]. eapply tri_bind; [apply (@delimited_is s); now left|]. intros a. apply tri_ret.
  intros c (H1 & H2 & H3). rewrite (H2 eq_refl) in H1. unfold fr, segF in H1. unfold fr. rewrite H1. destruct H3 as [-> |[E _]]; [|discriminate E]. apply string_. left. exists "'"%ch, y. split; [exact Hy|]. exists "'"%ch, "'"%ch. split; [now left|lia].
Qed.
Lemma regexp_sp s : tri (fr (onF s)) (consumeRegexp rec) (fun b c => fr (onF s) c /\ (b = true -> c_tok c = TRegexp)).
Proof.
  unfold consumeRegexp. eapply bind_keep with (F := onF s); [auto|r|intros p]. eapply tri_bind; [apply (@delimited_is s); now left|]. intros a. apply bind_ask. intros t. intros c Hc [(H1 & H2 & H3) _].
  rewrite (H2 eq_refl) in H1. destruct (tok_eqb t TString); cbn; (split; [exact Hc|]); (split; [exact H1|]); [reflexivity|discriminate].
Qed.
Lemma double_sp s : has (lit """") s -> tri (fr (onF s)) (consumeDoubleQuotedString rec) (fun _ => Sp).
Proof.
  intros [_ [y Hy]]. unfold consumeDoubleQuotedString. apply bind_option. rewrite Hf. cbn [negb]. eapply bind_keep with (F := onF s); [auto|r|intros p]. eapply tri_bind; [apply (@delimited_is s); now right|]. intros sg.
  assert (S : fr (onF s) = fun c => c_tsp c = s) by reflexivity.
  intros c Hc (H1 & _ & H3). destruct H3 as [H3|[E _]]; [|discriminate E]. unfold bind at 1, value_string, bind at 1, ask. destruct (c_val c); try exact Logic.I. cbn [ret]. unfold bind, ask. unfold getPos, ask.
  unfold fr, segF in H1. destruct sg as [[|e0 ss]|].
  - cbn. split; [exact Hc|]. unfold fr. rewrite H3, H1. apply string_. left. exists """"%ch, y. split; [exact Hy|]. exists """"%ch, """"%ch. split; [right; now left|lia].
  - destruct H1 as (l & q & x & El).
    assert (G : exists e1 es, (match s0 with [] => e0 :: ss | _ => (e0 :: ss) ++ [EString (mkpos (c_tsp c) (c_pos c - c_tsp c)) s0] end) = e1 :: es /\ match e1, es with EString _ _, [] => False | _, _ => True end).
    { destruct s0 as [|b s0].
      - exists e0, ss. split; [reflexivity|]. destruct e0; auto. destruct ss; auto. destruct l as [|? [|]]; discriminate El.
      - exists e0, (ss ++ [EString (mkpos (c_tsp c) (c_pos c - c_tsp c)) (b :: s0)]). split; [reflexivity|]. destruct e0; auto. destruct ss; exact Logic.I. }
    destruct G as (e1 & es & -> & G). destruct e1; try destruct es; try contradiction; (split; [exact Hc|]); unfold fr; cbn; apply composed.
  - cbn. split; [exact Hc|]. unfold fr. rewrite H3, H1. apply string_. left. exists """"%ch, y. split; [exact Hy|]. exists """"%ch, """"%ch. split; [right; now left|lia].
Qed.
Lemma apply_is s0 e i fl bld c st sg : tri (pre s0 (FApply e i fl bld c st sg)) (apply_body rec e i fl bld c st sg) (out s0 (FApply e i fl bld c st sg)).
Proof.
  cbn [pre out]. unfold apply_body. cbv zeta.
  assert (L : forall b' sg', K anyF (bind next (fun '(c', st') => rec (FApply e i fl b' c' st' sg')))).
  { intros. eapply bind_keep with (F := anyF); [auto|apply next_keeps|]. intros [c' st']. apply (@HR s0 _ (FApply e i fl b' c' st' sg')). }
  assert (H : forall st' ss b', K anyF (handleInterpolation rec st' ss b')).
  { intros. eapply tri_weak; [apply (@handle_is (fr anyF))|auto|]. intros; exact Logic.I. }
  repeat first [apply L | apply H | r1].
Qed.

(** ** The functions of single tokens *)
Ltac hook ::= lazymatch goal with
  | |- K _ (skipWhite _) => apply skip_keeps
  | |- K anyF (rec (FApply ?a ?b ?c ?d ?e ?f ?g)) => exact (@HR 0 _ (FApply a b c d e f g))
  | |- tri (fr anyF) (settokenValue THeredoc _) (fun _ => Sp) => apply tri_modify; let c := fresh in let H := fresh in intros c H _; split; [exact H|apply heredoc]
  | |- tri (fr anyF) (bind (settokenValue _ _) _) _ => eapply tri_bind; [apply set_any|intros ?]
  end.
Lemma heredoc_sp (P : ctx -> Prop) : tri P (consumeHeredocString rec) (fun _ => Sp).
Proof.
  apply weak_any. unfold consumeHeredocString.
  eapply bind_keep with (F := anyF); [auto|r|intros st]. cbv zeta. eapply bind_keep with (F := anyF); [auto|r|]; [apply flags_keep|]. intros [d te]. destruct (h_tag d); [r|].
  eapply bind_keep with (F := anyF); [auto|r|intros [c sz]]. eapply bind_keep with (F := anyF); [auto|r|intros [c' cs]]. eapply bind_keep with (F := anyF); [auto|r|intros [[ce he] is]].
  assert (L : forall P h, tri P ((modify (fun c => with_nls (he + 1) (with_pos te c)) ;; f <- option_on o_factory ;;
        if f : bool then
          settokenValue THeredoc
            (VExpr (EHeredoc (mkpos (st - 2) (ce - (st - 2))) (h_syntax d)
                             (EString (mkpos cs (ce - cs)) h)))
        else settokenValue TString (VStr h))) (fun _ => Sp)).
  { intros P' h. apply weak_any. eapply bind_keep with (F := anyF); [auto|r|intros ?]. apply bind_option. rewrite Hf. r1. }
  destruct (_ || _ || _).
  - eapply bind_keep with (F := anyF); [auto|r|intros ?]. apply bind_option. rewrite Hf. eapply bind_keep with (F := anyF); [auto|r|]. intros [h sg]. destruct sg as [[|e es]|]; [apply L| |apply L]. r.
  - eapply bind_keep with (F := anyF); [auto|r|intros ?]. eapply bind_keep with (F := anyF); [auto|r|intros h]. apply L.
Qed.
Lemma while_post A B (P : ctx -> Prop) (b : A -> M (A + B)) (Q : B -> ctx -> Prop) a :
  (forall a, tri P (b a) (fun x c => match x with inl _ => P c | inr y => Q y c end)) -> tri P (while b a) Q.
Proof.
  intros H c Hc HP. unfold while. generalize (loop_fuel c). intros n. revert a c Hc HP. induction n as [|n IH]; intros a; [apply tri_fuel|]. cbn [loop]. eapply tri_bind; [apply H|]. intros [a'|y]; [exact (IH a')|apply tri_ret; auto].
Qed.
Lemma epp_sp (P : ctx -> Prop) : epp = true -> tri P (consumeEPP rec) (fun _ => Sp).
Proof.
  intros He. apply weak_any. unfold consumeEPP. eapply tri_bind with (R := fun _ => Sp).
  - apply while_post. intros [buf lnw]. unfold epp_step.
    assert (F : forall (P' : ctx -> Prop) st b, tri P' (setPos st ;; settokenValue TRenderString (VStr b) ;; ret (inr (match b with [] => true | _ => false end)))
              (fun (x : (str * Z) + bool) c => match x with inl _ => fr anyF c | inr _ => Sp c end)).
    { intros P' st b. apply weak_any. eapply bind_keep with (F := anyF); [auto|r|intros ?]. eapply tri_bind with (R := fun _ => Sp).
      - apply tri_modify. intros c Hc _. split; [exact Hc|]. apply template_text, He.
      - intros ?. apply tri_ret. auto. }
    assert (I : forall (P' : ctx -> Prop) x, tri P' (ret (inl x)) (fun (x : (str * Z) + bool) c => match x with inl _ => fr anyF c | inr _ => Sp c end)).
    { intros P' x. apply tri_ret. intros; exact Logic.I. }
    eapply bind_keep with (F := anyF); [auto|r|]. intros [ec st]. cbv zeta.
    destruct (ec =? 0).
    + eapply tri_bind with (R := fun _ => Sp); [|intros ?; apply tri_ret; auto]. destruct buf; (apply tri_modify; intros c Hc _; split; [exact Hc|]); [apply template_end, He|apply template_text, He].
    + repeat first [apply F | apply I | r1].
  - intros b. destruct b; [apply (@next_sp Sp)|r1].
Qed.

Ltac onto := let H := fresh in intros ? H; first [exact H | exact (proj1 H) | exact (proj1 (proj1 H))].
Ltac own s0 := lazymatch goal with
  | |- tri ?P (setToken ?t) ?Q => change (tri P (settokenValue t VNil) Q); apply set_sp with (s := s0); [onto|eapply own_sp; [eassumption|reflexivity|reflexivity]]
  end.
Lemma number_sp s : one_of [digit] (rest s) -> tri (fr (onF s)) (lex_number s) (fun _ => Sp).
Proof.
  intros H. assert (HI : SpF TInteger s) by now constructor. assert (HF : SpF TFloat s) by now constructor. unfold lex_number.
  eapply bind_keep with (F := onF s); [auto|r|intros ?]. eapply bind_keep with (F := onF s); [auto|r|intros [c sz]].
  destruct (_ || _).
  - unfold consumeFloat. repeat first [apply set_sp with (s := s); [onto|exact HF] | r1].
  - eapply bind_keep with (F := onF s); [auto|r|intros l]. destruct l; [r|]. eapply bind_keep with (F := onF s); [auto|r|intros w]. eapply tri_bind; [apply set_sp with (s := s); [onto|exact HI]|intros ?; r].
Qed.
Lemma zero_sp s : one_of [digit] (rest s) -> tri (fr (onF s)) (lex_zero s) (fun _ => Sp).
Proof.
  intros H. assert (HI : SpF TInteger s) by now constructor. assert (HF : SpF TFloat s) by now constructor. unfold lex_zero, consumeFloat.
  repeat first [apply set_sp with (s := s); [onto|first [exact HF|exact HI]] | r1].
Qed.
Lemma variable_sp s : has (lit "$") s -> tri (fr (onF s)) (lex_variable s) (fun _ => Sp).
Proof.
  intros [_ H]. assert (HV : SpF TVariable s) by now constructor. unfold lex_variable.
  repeat first [apply set_sp with (s := s); [onto|exact HV] | apply word_sp; exact H | r1].
Qed.
Lemma paren_sp s : has (lit "(") s -> tri (fr (onF s)) (lex_paren s) (fun _ => Sp).
Proof.
  intros H. unfold lex_paren. eapply bind_keep with (F := onF s); [auto|r|intros ?]. eapply bind_keep with (F := onF s); [auto|r|intros ?]. eapply bind_keep with (F := onF s); [auto|r|intros [q p]]. eapply bind_keep with (F := onF s); [auto|r|intros ?].
  destruct (p =? s); own s.
Qed.
Lemma backtick_sp s : has (lit "`") s -> tri (fr (onF s)) consumeBacktickedString (fun _ => Sp).
Proof.
  intros [_ [y Hy]]. assert (HS : SpF TString s).
  { apply string_. left. exists "`"%ch, y. split; [exact Hy|]. exists "`"%ch, "`"%ch. split; [cbn; auto|lia]. }
  unfold consumeBacktickedString. eapply bind_keep with (F := onF s); [auto|r|intros ?]. eapply bind_keep with (F := onF s); [auto|r|intros [q [c sz]]]. destruct (c =? 0); [r|].
  eapply bind_keep with (F := onF s); [auto|r|intros ?]. eapply tri_bind; [apply set_sp with (s := s); [onto|exact HS]|intros ?; r].
Qed.
Ltac here := let H := fresh in intros ? H; first [exact (proj2 H) | exact (proj2 (proj1 H))].
(** [c, sz = Peek(); if c == x]: one more byte of the token *)
Ltac more s0 := lazymatch goal with
  | E : (?c =? ?k) = true, H : 0 < ?c < 128 -> ?sz = 1 /\ has _ s0 |- tri (aft ?w s0) (bind (advance ?sz) _) _ =>
    apply Z.eqb_eq in E; let H1 := fresh in let H2 := fresh in destruct H as [H1 H2]; [rewrite E; split; reflexivity|]; rewrite E in H2; apply bind_advance with (c0 := k); [exact H1|]
  end.
Ltac look x y := eapply bind_peek with (w := x) (s := y); [eassumption|here|intros ? ? ?].
Lemma minus_sp s : has (lit "-") s -> tri (aft (lit "-") s) (lex_minus rec) (fun _ => Sp).
Proof.
  intros H. unfold lex_minus. look (lit "-") s. cbv beta iota. apply bind_option. destruct (c0 =? "="%ch) eqn:E1; [more s; own s|]. destruct (c0 =? ">"%ch) eqn:E2; [more s; own s|].
  destruct ((c0 =? "%"%ch) && epp) eqn:E3; [|own s]. apply Bool.andb_true_iff in E3 as [_ E3]. apply weak_any. repeat first [apply epp_sp; exact E3 | r1].
Qed.
Lemma percent_sp s : has (lit "%") s -> tri (aft (lit "%") s) (lex_percent rec) (fun _ => Sp).
Proof.
  intros H. unfold lex_percent. eapply tri_bind with (R := fun _ => Sp); [own s|intros ?]. apply bind_option. case_eq (o_epp o); intros E; repeat first [apply epp_sp; exact E | r1].
Qed.
Lemma less_sp s : has (lit "<") s -> tri (aft (lit "<") s) (lex_less rec) (fun _ => Sp).
Proof.
  intros H. unfold lex_less. look (lit "<") s. cbv beta iota. apply bind_option. destruct (c0 =? "="%ch) eqn:E1; [more s; own s|]. destruct (c0 =? "<"%ch) eqn:E2.
  { more s. apply op_sp; [assumption| |own s]. intros x t [E|[]]. injection E as <- <-. repeat split; reflexivity. }
  destruct (c0 =? "|"%ch) eqn:E3; [more s; own s|]. destruct (c0 =? "-"%ch) eqn:E4; [more s; own s|]. destruct (c0 =? "~"%ch) eqn:E5; [more s; own s|].
  destruct ((c0 =? "%"%ch) && epp) eqn:E6; [|own s]. apply Bool.andb_true_iff in E6 as [E6 _]. more s. look (lit "<" ++ ["%"%ch]) s. cbv beta iota.
  destruct (c1 =? "="%ch) eqn:E7; [more s; own s|]. apply weak_any. repeat first [apply (@next_sp (fr anyF)) | r1].
Qed.
Lemma pipe_sp s : has (lit "|") s -> tri (aft (lit "|") s) lex_pipe (fun _ => Sp).
Proof.
  intros H. unfold lex_pipe. look (lit "|") s. cbv beta iota. destruct (c0 =? ">"%ch) eqn:E1.
  { more s. apply op_sp; [assumption| |own s]. intros x t [E|[]]. injection E as <- <-. repeat split; reflexivity. }
  eapply tri_weak with (P' := fr (onF s)) (Q' := fun _ => Sp); [|onto|auto]. repeat first [own s | r1].
Qed.
Lemma colon_sp s : has (lit ":") s -> tri (aft (lit ":") s) (lex_colon s) (fun _ => Sp).
Proof.
  intros H. unfold lex_colon. eapply tri_bind with (R := fun _ c => aft (lit ":") s c /\ Sp c).
  { apply tri_modify. intros c Hc [H1 H2]. split; [exact Hc|]. split; [split; [exact H1|exact H2]|]. unfold fr, onF in *. cbn. rewrite H1. eapply own_sp; [exact H|reflexivity|reflexivity]. }
  intros ?. eapply bind_peek with (w := lit ":") (s := s); [exact H|intros c Hc; exact (proj2 (proj1 Hc))|]. intros c sz Hc. cbv beta iota. destruct (c =? ":"%ch) eqn:E; [|apply tri_ret; intros d Hd; exact (proj2 Hd)].
  apply Z.eqb_eq in E as ->. destruct Hc as [_ [_ Hc]]; [split; reflexivity|]. eapply tri_weak with (P' := fr (onF s)); [|intros d Hd; exact (proj1 (proj1 Hd))|intros u d Hd; exact Hd].
  repeat first [apply word_sp; right; exact Hc | r1].
Qed.
Lemma at_sp s : has (lit "@") s -> tri (aft (lit "@") s) (lex_at rec) (fun _ => Sp).
Proof.
  intros H. unfold lex_at. look (lit "@") s. cbv beta iota. destruct (c0 =? "@"%ch) eqn:E1; [more s; own s|]. destruct (c0 =? "("%ch); [|own s]. apply weak_any. eapply bind_keep with (F := anyF); [auto|r|intros ?]. apply heredoc_sp.
Qed.
Lemma slash_sp s : has (lit "/") s -> tri (fr (onF s)) (found <- consumeRegexp rec ;; if found : bool then ret tt else setToken TDivide) (fun _ => Sp).
Proof.
  intros H. eapply tri_bind; [apply regexp_sp|]. intros b. destruct b; [|own s]. apply tri_ret. intros c [H1 H2]. unfold fr, onF in *. rewrite (H2 eq_refl), H1. apply regexp, H.
Qed.

(** ** nextToken *)
Definition seen (c s : Z) : Prop := (0 < c < 128 -> has [c] s) /\ (c = 0 -> SpF TEnd s) /\ (c <> 0 -> Forall byte T -> leads (encode_rune c) (rest s)).
Lemma next_seen (P : ctx -> Prop) : tri P next (fun a d => seen (fst a) (snd a) /\ (0 < fst a < 128 -> c_pos d = snd a + 1)).
Proof.
  intros c Hc HP. unfold next. destruct (rune_at (c_pos c) c) as [[q w]|e] eqn:E; [|exact (@rune_err _ _ _ E)]. split; [exact Hc|]. destruct Hc as [HT _]. cbn [fst snd]. unfold seen, SpF, has, rest. rewrite <- HT. split; [split; [|split]|].
  - intros Hq. destruct (@rune_is _ _ _ _ E ltac:(lia)) as [[-> _]|(H0 & -> & y & Hy)]; [lia|]. split; [exact H0|]. exists y. exact Hy.
  - intros ->. destruct (@rune_is _ _ _ _ E ltac:(lia)) as [[_ Hy]|(H0 & -> & y & Hy)]; rewrite Hy; [apply end_of_source|apply nul_byte].
  - intros Hq HB. exact (@rune_of _ _ _ _ E HB Hq).
  - intros Hq. destruct (@rune_is _ _ _ _ E ltac:(lia)) as [[-> _]|(H0 & -> & y & Hy)]; [lia|]. reflexivity.
Qed.
Lemma skip_seen (P : ctx -> Prop) : tri P (skipWhite false) (fun a d => seen (fst a) (snd a) /\ (0 < fst a < 128 -> c_pos d = snd a + 1)).
Proof.
  apply weak_any. unfold skipWhite. apply while_post. intros [cs csp]. unfold skipWhite_step.
  assert (I : forall (P' : ctx -> Prop) x, tri P' (ret (inl x)) (fun (x : (Z * Z) + (Z * Z)) d => match x with inl _ => fr anyF d | inr a => seen (fst a) (snd a) /\ (0 < fst a < 128 -> c_pos d = snd a + 1) end)).
  { intros P' x. apply tri_ret. intros; exact Logic.I. }
  assert (J : forall c s, tri (fun d => seen c s /\ (0 < c < 128 -> c_pos d = s + 1)) (ret (inr (c, s))) (fun (x : (Z * Z) + (Z * Z)) d => match x with inl _ => fr anyF d | inr a => seen (fst a) (snd a) /\ (0 < fst a < 128 -> c_pos d = snd a + 1) end)).
  { intros c s. apply tri_ret. intros d H. exact H. }
  assert (U : forall (P' : ctx -> Prop) b x, tri P' (bind (advance b) (fun _ => ret (inl x))) (fun (x : (Z * Z) + (Z * Z)) d => match x with inl _ => fr anyF d | inr a => seen (fst a) (snd a) /\ (0 < fst a < 128 -> c_pos d = snd a + 1) end)).
  { intros P' b x. apply weak_any. eapply bind_keep with (F := anyF); [auto|r|intros ?]. apply I. }
  eapply tri_bind; [apply next_seen|]. intros [c s]. cbn [fst snd].
  assert (PK : forall B (P' : ctx -> Prop) (k : Z * Z -> M B) Q, (forall a, tri P' (k a) Q) -> tri P' (bind peek k) Q).
  { intros B P' k Q HK. eapply tri_bind with (R := fun _ => P'); [|exact HK]. intros d Hd Hp. unfold peek. destruct (rune_at (c_pos d) d) as [a|e] eqn:E; [auto|exact (@rune_err _ _ _ E)]. }
  destruct (c =? 0); [destruct (cs =? "*"%ch); [|apply J]; apply weak_any; r|].
  destruct (c =? 10).
  { destruct (cs =? "*"%ch); [apply I|]. apply weak_any. repeat first [apply I | r1]. }
  destruct (c =? "#"%ch); [destruct (cs =? 0); apply I|].
  destruct (c =? "/"%ch); [destruct (cs =? 0); [|apply I]; apply PK; intros [tc sz]; destruct (tc =? "*"%ch); [apply U|apply J]|].
  destruct (c =? "*"%ch).
  { destruct (cs =? "#"%ch); [apply I|]. destruct (cs =? "*"%ch); [|apply J]. apply PK; intros [tc sz]; destruct (tc =? "/"%ch); [apply U|apply I]. }
  destruct (_ || _ || _); [apply I|]. destruct (cs =? 0); [apply J|apply I].
Qed.
Lemma at_issue A (P : ctx -> Prop) s a (Q : A -> ctx -> Prop) : honest (Issue LEX_UNEXPECTED_TOKEN a s) -> tri P (setPos s ;; issue2 LEX_UNEXPECTED_TOKEN a) Q.
Proof. intros H c Hc HP. exact H. Qed.
Lemma unexpected_f A (P : ctx -> Prop) s c (Q : A -> ctx -> Prop) : (Forall byte T -> leads (encode_rune c) (rest s)) -> tri P (unexpected_char s c) Q.
Proof. intros H. apply at_issue. intros [HB _]. eexists. split; [reflexivity|]. right. apply punctuation_or_keyword; [apply rune_text|auto]. Qed.
Lemma tilde_f A (P : ctx -> Prop) s (Q : A -> ctx -> Prop) : has (lit "~") s -> tri P (setPos s ;; issue2 LEX_UNEXPECTED_TOKEN [("token"%string, lit "~")]) Q.
Proof. intros [_ H]. apply at_issue. intros _. eexists. split; [reflexivity|]. right. apply punctuation_or_keyword; [exact (@rune_text 126)|exact H]. Qed.
Lemma token_sp ss s c : seen c s -> tri (fun d => fr (onF s) d /\ (0 < c < 128 -> c_pos d = s + 1)) (lex_token rec ss s c) (fun _ => Sp).
Proof.
  intros (H & H0 & HU).
  assert (O : forall m : M unit, tri (fr (onF s)) m (fun _ => Sp) -> tri (fun d => fr (onF s) d /\ (0 < c < 128 -> c_pos d = s + 1)) m (fun _ => Sp)).
  { intros m Hm. eapply tri_weak; [exact Hm|onto|intros u d Hd; exact Hd]. }
  assert (A : forall m : M unit, 0 < c < 128 -> tri (aft [c] s) m (fun _ => Sp) -> tri (fun d => fr (onF s) d /\ (0 < c < 128 -> c_pos d = s + 1)) m (fun _ => Sp)).
  { intros m Hr Hm. eapply tri_weak; [exact Hm|intros d [H1 H2]; split; [exact H1|exact (H2 Hr)]|intros u d Hd; exact Hd]. }
  assert (R : forall a b, (a <=? c) && (c <=? b) = true -> 0 < a -> b < 128 -> one_of [(a, b)] (rest s)).
  { intros a b Hab Ha Hb. destruct H as [_ [y Hy]]; [lia|]. exists c, y. split; [exact Hy|]. exists a, b. split; [now left|lia]. }
  unfold lex_token.
  destruct (in_range "1"%ch c "9"%ch) eqn:E0.
  { apply O, number_sp. unfold in_range in E0.
    destruct H as [_ [y Hy]]; [lia|]. exists c, y. split; [exact Hy|]. exists "0"%ch, "9"%ch. split; [now left|lia]. }
  destruct (isUppercaseLetter c) eqn:E1.
  { apply O, word_sp. left. unfold isUppercaseLetter, in_range in E1. apply (R "A"%ch "Z"%ch E1); reflexivity. }
  destruct (isLowercaseLetter c) eqn:E2.
  { apply O, word_sp. left. unfold isLowercaseLetter, in_range in E2. apply (R "a"%ch "z"%ch E2); reflexivity. }
  destruct (c =? 0) eqn:E3.
  { clear HU. apply Z.eqb_eq in E3. change (setToken TEnd) with (settokenValue TEnd VNil). apply set_sp with (s := s); [onto|auto]. }
  apply Z.eqb_neq in E3. clear E0 E1 E2.
  repeat lazymatch goal with
  | |- tri _ (if ?x =? ?k then _ else _) _ =>
    let E := fresh "E" in destruct (x =? k) eqn:E;
    [apply Z.eqb_eq in E; rewrite E in *; specialize (H ltac:(split; reflexivity)); clear E;
     first [ apply O; first [apply number_sp|apply paren_sp; exact H|apply single_sp; exact H|apply double_sp; exact H|apply variable_sp; exact H]
           | apply A; [split; reflexivity|]; first [apply colon_sp; exact H|apply minus_sp; exact H|apply percent_sp; exact H|apply less_sp; exact H|apply pipe_sp; exact H|apply at_sp; exact H]
           | own s
           | apply A; [split; reflexivity|]; apply op_sp; [exact H|let x := fresh in let t := fresh in let E := fresh in intros x t E; cbn in E; repeat (destruct E as [E|E]; [injection E as <- <-; repeat split; reflexivity|]); contradiction|first [own s|apply tilde_f; exact H|eapply tri_weak with (P' := fr (onF s)) (Q' := fun _ => Sp); [|onto|auto]; r]]
           | idtac ] | ]
  end.
  - apply O. eapply bind_keep with (F := onF s); [auto|r|intros t]. destruct (tok_eqb t TQmark); own s.
  - destruct (_ || _); own s.
  - apply O. eapply bind_keep with (F := onF s); [auto|r|intros t]. destruct (isRegexpAcceptable t); [apply slash_sp; exact H|own s].
  - apply O, zero_sp. destruct H as [_ [y Hy]]. exists "0"%ch, y. split; [exact Hy|]. exists "0"%ch, "9"%ch. split; [now left|lia].
  - apply O. apply bind_option. destruct (o_backtick o); [apply backtick_sp; exact H|]. apply unexpected_f. apply HU. discriminate.
  - apply O. apply unexpected_f. apply HU. assumption.
Qed.
Lemma nextToken_sp s0 : tri (pre s0 FNextToken) (nextToken_body rec) (out s0 FNextToken).
Proof.
  cbn [pre out]. unfold nextToken_body. eapply bind_keep with (F := anyF); [auto|r|intros ss]. eapply tri_bind; [apply skip_seen|]. intros [c s]. cbn [fst snd].
  intros d Hd [H1 H2]. unfold bind, modify. refine (@token_sp ss s c H1 _ _ _); [exact Hd|]. split; [reflexivity|exact H2].
Qed.

(** ** The parser *)
Lemma assert_f t : closing t -> K SpF (assertToken t).
Proof.
  intros Ht c Hc H. unfold assertToken, bind, curTok, ask. destruct (tok_eqb (c_tok c) t) eqn:E; [cbn; auto|]. cbn. exists (tokenMap t), (tokenMap (c_tok c)). split; [reflexivity|]. split; [exact H|].
  apply names_differ; [exact E|..]; intros ->; exact Ht.
Qed.
Lemma rec_f A (f : fn A) : (forall c, Sp c -> pre 0 f c) -> (forall a c, out 0 f a c -> Sp c) -> K SpF (rec f).
Proof. intros H1 H2. eapply tri_weak; [apply (@HR 0)|exact H1|exact H2]. Qed.
Lemma stands_f A (Q : A -> ctx -> Prop) : tri Sp (toTokenStart ;; unexpectedToken) Q.
Proof. intros c Hc H. cbn. intros _. eexists. split; [reflexivity|]. right. exact H. Qed.
Lemma loud_f A (P : ctx -> Prop) (Q : A -> ctx -> Prop) : ~ quiet -> tri P unexpectedToken Q.
Proof. intros H c Hc HP. cbn. intros Hq. contradiction. Qed.
Lemma type_loud s : SpF TType s -> ~ quiet.
Proof.
  intros H [_ N]. apply N. assert (L : leads (lit "type") (rest s)).
  { unfold SpF in H. remember (tokenMap TType) as w eqn:Ew. destruct H as [w' ? _ HL| | | | | | | | | | | | | |]; try discriminate Ew. rewrite Ew in HL. exact HL. }
  destruct L as [y L]. exists (firstn (Z.to_nat s) T), y. rewrite <- L. symmetry. apply firstn_skipn.
Qed.
Lemma commas_check_f F es : K F (check_commas es).
Proof.
  induction es as [|e es IH]; cbn [check_commas]; [r|]. destruct e; try apply IH. match goal with |- K _ (match ?x with _ => _ end) => destruct x as [|f l]; [r|] end. cbv zeta.
  assert (S : forall x : Z + err, (forall e, x = inr e -> honest e) -> K F (of_sum x)).
  { intros x H. unfold of_sum. destruct x; [r|]. apply tri_throw. auto. }
  eapply bind_keep with (F := F); [auto|r|intros text]. eapply bind_keep with (F := F); [auto|apply S|intros line]; [|eapply bind_keep with (F := F); [auto|apply S|intros col; r]].
  - intros e H. unfold lineForOffset in H. destruct (getLineIndex text); inversion H. exact Logic.I.
  - intros e H. unfold posOnLine in H. destruct (getLineIndex text); [|inversion H; exact Logic.I]. cbv zeta in H. repeat match type of H with (if ?x then _ else _) = _ => destruct x end; inversion H; exact Logic.I.
Qed.
Lemma calls_f F es : K F (transformCalls es).
Proof. unfold transformCalls. destruct es as [|m es]; [r|]. destruct (transform_from m es) as [x b]. eapply bind_keep with (F := F); [auto|destruct b; [apply commas_check_f|r]|]. intros ?. r. Qed.
Ltac hook ::= lazymatch goal with
  | |- K _ (skipWhite _) => apply skip_keeps
  | |- K _ (rec FNextToken) => apply next_sp
  | |- K _ (rec _) => apply rec_f; [let H := fresh in intros ? H; first [exact H | split; [exact H|first [exact Logic.I | assumption]]]|let H := fresh in intros ? ? H; exact H]
  | |- K _ (assertToken _) => apply assert_f; first [exact Logic.I | assumption | match goal with |- closing (if ?x then _ else _) => destruct x; exact Logic.I end | idtac]
  | |- K _ (transformCalls _) => apply calls_f
  | |- tri _ (bind toTokenStart (fun _ => unexpectedToken)) _ => apply stands_f
  | H : ~ quiet |- tri _ unexpectedToken _ => apply loud_f; exact H
  | |- tri _ (issue2 LEX_UNEXPECTED_TOKEN [("token"%string, lit "+")]) _ => apply tri_issue2; intros ? ? ?; eexists; split; [reflexivity|left; reflexivity]
  end.
Lemma from_pre A (m : M A) (C : Prop) Q : (C -> tri Sp m Q) -> tri (fun c => Sp c /\ C) m Q.
Proof. intros H c Hc [H1 H2]. exact (H H2 c Hc H1). Qed.
Lemma parse_f s0 e s : tri (pre s0 (FParse e s)) (parse_body rec e s) (out s0 (FParse e s)).
Proof. cbn [pre out]. apply from_pre. intros He. unfold parse_body. r. Qed.
Lemma statements_f s0 e acc : tri (pre s0 (FStatements e acc)) (statements_body rec e acc) (out s0 (FStatements e acc)).
Proof. cbn [pre out]. unfold statements_body. r. Qed.
Lemma commalist_f s0 acc : tri (pre s0 (FCommas acc)) (commas_body rec acc) (out s0 (FCommas acc)).
Proof. cbn [pre out]. unfold commas_body. r. Qed.
Lemma produce_f p : K SpF (produce rec p).
Proof. unfold produce. r. Qed.
Lemma expressions_f s0 e p acc : tri (pre s0 (FExpressions e p acc)) (expressions_body rec e p acc) (out s0 (FExpressions e p acc)).
Proof.
  cbn [pre out]. apply from_pre. intros He. unfold expressions_body. eapply bind_keep with (F := SpF); [auto|r|intros cur]. destruct (tok_eqb cur e); [r|].
  eapply bind_keep with (F := SpF); [auto|apply produce_f|intros x]. unfold curTok at 1. apply bind_ask. intros t. destruct (tok_eqb t TComma) eqn:E1; cbn [negb].
  - eapply bind_keep with (F := SpF); [intros c H; exact (proj1 H)|r|intros ?]. r.
  - destruct (tok_eqb t e) eqn:E2; cbn [negb]; [apply tri_ret; intros c H; exact (proj1 H)|]. intros c Hc [H Ht]. cbn. exists (tokenMap e), (tokenMap t). split; [reflexivity|]. rewrite <- Ht. split; [exact H|]. rewrite Ht. split.
    + intros K. destruct t; try discriminate K. discriminate E1.
    + apply names_differ; [exact E2|..]; intros ->; exact He.
Qed.
Lemma relationship_f s0 : tri (pre s0 FRelationship) (relationship_body rec) (out s0 FRelationship).
Proof. cbn [pre out]. unfold relationship_body. r. Qed.
Lemma relLoop_f s0 e : tri (pre s0 (FRelLoop e)) (relLoop_body rec e) (out s0 (FRelLoop e)).
Proof. cbn [pre out]. unfold relLoop_body. r. Qed.
Lemma assignment_f s0 : tri (pre s0 FAssignment) (assignment_body rec) (out s0 FAssignment).
Proof. cbn [pre out]. unfold assignment_body. r. Qed.
Lemma assignLoop_f s0 e : tri (pre s0 (FAssignLoop e)) (assignLoop_body rec e) (out s0 (FAssignLoop e)).
Proof. cbn [pre out]. unfold assignLoop_body. r. Qed.
Lemma expression_f s0 : tri (pre s0 FExpression) (expression_body rec) (out s0 FExpression).
Proof. cbn [pre out]. unfold expression_body. r. Qed.
Lemma selectLoop_f s0 e : tri (pre s0 (FSelectLoop e)) (selectLoop_body rec e) (out s0 (FSelectLoop e)).
Proof. cbn [pre out]. unfold selectLoop_body. r. Qed.
Lemma level_f s0 l : tri (pre s0 (FLevel l)) (level_body rec l) (out s0 (FLevel l)).
Proof. cbn [pre out]. unfold level_body. r. Qed.
Lemma levelLoop_f s0 l e : tri (pre s0 (FLevelLoop l e)) (levelLoop_body rec l e) (out s0 (FLevelLoop l e)).
Proof. cbn [pre out]. unfold levelLoop_body. r. Qed.
Lemma keep_tok (P : ctx -> Prop) t v : (forall c, P c -> Sp c /\ c_tok c = t) -> tri P (settokenValue t v) (fun _ => Sp).
Proof. intros HP. apply tri_modify. intros c Hc H. split; [exact Hc|]. destruct (HP c H) as [H1 H2]. unfold fr in *. rewrite H2 in H1. exact H1. Qed.
Lemma unary_f s0 : tri (pre s0 FUnary) (unary_body rec) (out s0 FUnary).
Proof.
  cbn [pre out]. unfold unary_body. eapply bind_keep with (F := SpF); [auto|r|intros st]. eapply bind_keep with (F := SpF); [auto|r|intros t]. destruct t; try solve [r].
  eapply bind_keep with (F := SpF); [auto|r|intros [c sz]]. destruct (isDecimalDigit c); [|r]. eapply bind_keep with (F := SpF); [auto|r|intros ?].
  unfold curTok. apply bind_ask. intros cur. apply bind_ask. intros v. eapply tri_bind with (R := fun _ => Sp); [|intros ?; r].
  destruct (tok_eqb cur TInteger); destruct v; try (apply tri_throw; exact Logic.I); apply keep_tok; intros d [H _]; exact H.
Qed.
Lemma primary_f s0 : tri (pre s0 FPrimary) (primary_body rec) (out s0 FPrimary).
Proof. cbn [pre out]. unfold primary_body. r. Qed.
Lemma primaryLoop_f s0 e : tri (pre s0 (FPrimaryLoop e)) (primaryLoop_body rec e) (out s0 (FPrimaryLoop e)).
Proof. cbn [pre out]. unfold primaryLoop_body. r. Qed.
Lemma atom_f s0 : tri (pre s0 FAtom) (atom_body rec) (out s0 FAtom).
Proof.
  cbn [pre out]. unfold atom_body. eapply bind_keep with (F := SpF); [auto|r|intros st]. unfold curTok at 1. apply bind_ask. intros cur. apply bind_ask. intros v.
  assert (L : forall m : M expr, (~ quiet -> K SpF m) -> tri (fun c => (Sp c /\ c_tok c = TType) /\ c_val c = v) m (fun _ => Sp)).
  { intros m H c Hc [[H1 H2] _]. apply (H (fun q => match @type_loud (c_tsp c) ltac:(unfold fr in H1; rewrite H2 in H1; exact H1) q with end) c Hc H1). }
  destruct cur; try solve [apply L; intros ?; r | eapply tri_weak with (P' := Sp) (Q' := fun _ => Sp); [|let H := fresh in intros ? H; exact (proj1 (proj1 H))|let H := fresh in intros ? ? H; exact H]; r].
Qed.
Lemma call_f s0 e : tri (pre s0 (FCall e)) (call_body rec e) (out s0 (FCall e)).
Proof. cbn [pre out]. unfold call_body. r. Qed.
Lemma parameterType_f s0 : tri (pre s0 FParameterType) (parameterType_body rec) (out s0 FParameterType).
Proof. cbn [pre out]. unfold parameterType_body. r. Qed.
Lemma if_f s0 b : tri (pre s0 (FIf b)) (if_body rec b) (out s0 (FIf b)).
Proof. cbn [pre out]. unfold if_body. r. Qed.
Lemma caseOptions_f s0 acc : tri (pre s0 (FCaseOptions acc)) (caseOptions_body rec acc) (out s0 (FCaseOptions acc)).
Proof. cbn [pre out]. unfold caseOptions_body. r. Qed.
Lemma resourceExpr_f s0 s e f : tri (pre s0 (FResourceExpr s e f)) (resourceExpr_body rec s e f) (out s0 (FResourceExpr s e f)).
Proof. cbn [pre out]. unfold resourceExpr_body. r. apply tri_throw. match goal with H : node_text _ _ = inr _ |- _ => unfold node_text in H; match type of H with (if ?x then _ else _) = _ => destruct x end; inversion H; exact Logic.I end. Qed.
Lemma bodies_f s0 t acc : tri (pre s0 (FBodies t acc)) (bodies_body rec t acc) (out s0 (FBodies t acc)).
Proof. cbn [pre out]. unfold bodies_body. r. Qed.
Lemma attrOps_f s0 acc : tri (pre s0 (FAttrOps acc)) (attrOps_body rec acc) (out s0 (FAttrOps acc)).
Proof. cbn [pre out]. unfold attrOps_body. r. Qed.
Lemma hostnames_f s0 acc : tri (pre s0 (FHostnames acc)) (hostnames_body rec acc) (out s0 (FHostnames acc)).
Proof. cbn [pre out]. unfold hostnames_body. r. Qed.
Lemma dotted_f s0 st ns : tri (pre s0 (FDotted st ns)) (dotted_body rec st ns) (out s0 (FDotted st ns)).
Proof. cbn [pre out]. unfold dotted_body. r. Qed.
Lemma activities_f s0 acc : tri (pre s0 (FActivities acc)) (activities_body rec acc) (out s0 (FActivities acc)).
Proof. cbn [pre out]. unfold activities_body. r. Qed.
Lemma stepDecl_f s0 s st n b : tri (pre s0 (FStepDecl s st n b)) (stepDecl_body rec s st n b) (out s0 (FStepDecl s st n b)).
Proof. cbn [pre out]. unfold stepDecl_body. r. Qed.
Lemma eppLoop_f s0 acc : tri (pre s0 (FEppLoop acc)) (eppLoop_body rec acc) (out s0 (FEppLoop acc)).
Proof. cbn [pre out]. unfold eppLoop_body. r. Qed.
Lemma body_f s0 A (f : fn A) : tri (pre s0 f) (body rec f) (out s0 f).
Proof.
  destruct f; cbn [body].
  - apply nextToken_sp. - apply delim_is. - apply apply_is. - apply parse_f. - apply statements_f. - apply commalist_f. - apply expressions_f.
  - apply relationship_f. - apply relLoop_f. - apply assignment_f. - apply assignLoop_f. - apply expression_f. - apply selectLoop_f.
  - apply level_f. - apply levelLoop_f. - apply unary_f. - apply primary_f. - apply primaryLoop_f. - apply atom_f. - apply call_f.
  - apply parameterType_f. - apply if_f. - apply caseOptions_f. - apply resourceExpr_f. - apply bodies_f. - apply attrOps_f.
  - apply hostnames_f. - apply dotted_f. - apply activities_f. - apply stepDecl_f. - apply eppLoop_f.
Qed.
Lemma top_f single : tri (fr anyF) (parseTop rec single) (fun _ => Sp).
Proof.
  unfold parseTop. apply bind_option. case_eq (o_epp o); intros E.
  - eapply tri_bind; [apply epp_sp, E|intros ?]. r.
  - eapply tri_bind; [apply next_sp|intros ?]. r.
Qed.
End Rec.
Lemma run_f n : forall s0 A (f : fn A), tri (pre s0 f) (run n f) (out s0 f).
Proof. induction n as [|n IH]; intros s0 A f; [apply tri_fuel|]. cbn [run]. apply body_f, IH. Qed.
Lemma parse_top_f n single : tri (fr anyF) (parseTop (run n) single) (fun _ => Sp).
Proof. apply top_f, run_f. Qed.
End Found.
