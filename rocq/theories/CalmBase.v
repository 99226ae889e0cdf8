(** * CalmBase: token and value agree, and what cannot crash because of it *)
From Verif Require Import Base Float Tokens Ast Ctx Locator Lexer Parser Wp CalmFrame.

(** the value a token carries *)
Fixpoint spine (e : expr) : bool :=
  match e with
  | ECallMethod _ _ f _ _ => match f with EBin _ KNamedAccess _ _ _ => spine f | _ => false end
  | EBin _ KNamedAccess _ l _ => spine l
  | ECommaList _ _ => false
  | _ => true
  end.
Definition vt (t : tok) (v : tval) : bool :=
  match t with
  | TInteger => match v with VInt _ => true | _ => false end
  | TFloat => match v with VFloat _ => true | _ => false end
  | TBoolean => match v with VBool _ => true | _ => false end
  | TDefault => match v with VDefault => true | _ => false end
  | TVariable => match v with VStr _ | VInt _ => true | _ => false end
  | TConcatenatedString | THeredoc => match v with VExpr e => spine e | _ => false end
  | TIdentifier | TString => match v with VStr _ => true | _ => false end
  | _ => match v with VNil | VStr _ => true | _ => false end
  end.
(** a statement: an expression, or a comma separated list of some *)
Definition stmt (e : expr) : bool := match e with ECommaList _ (_ :: _) => true | _ => spine e end.

Section Text.
Variable T : str.
Variable o : opts.
Definition typed : Prop := exists a b, T = a ++ lit "type" ++ b.
Definition vg (t : tok) (v : tval) : Prop := vt t v = true /\ (t = TType -> typed).
Definition Sc (ns : list str) (t : tok) (v : tval) (c : ctx) : Prop :=
  c_text c = T /\ c_opts c = o /\ c_names c = ns /\ c_tok c = t /\ c_val c = v.
Definition calm (e : err) : Prop :=
  match e with
  | GoPanic GoTypeAssert => typed
  | GoPanic GoString => o_workflow o = true
  | GoPanic (GoNilDeref | GoNames | GoElems) => False
  | _ => True
  end.
Definition Ec (e : err) (_ : ctx) : Prop := calm e.
Definition post (b : bool) (ns : list str) (A : Type) (P : A -> Prop) : A -> ctx -> Prop :=
  fun a c' => exists t v, Sc ns t v c' /\ (b = true -> vg t v) /\ P a.

Lemma soft_calm e : soft e -> calm e.
Proof. destruct e; cbn; auto. destruct site; cbn; tauto. Qed.
Lemma Sc_frame ns t v c c' : frame c c' -> Sc ns t v c -> Sc ns t v c'.
Proof. intros (p & n & x & y & r & ->). unfold Sc. cbn. auto. Qed.
Lemma c_soft A (m : M A) ns t v c (Q : A -> ctx -> Prop) :
  softly m -> Sc ns t v c -> (forall a c', Sc ns t v c' -> Q a c') -> wp Ec m c Q.
Proof.
  intros Hm Hs HQ. specialize (Hm c). unfold wp in *. destruct (m c) as [a c'|e c'|]; [| |exact I].
  - apply HQ. eapply Sc_frame; eauto.
  - now apply soft_calm.
Qed.
Lemma c_set ns t v t' v' c (Q : unit -> ctx -> Prop) :
  Sc ns t v c -> (forall c', Sc ns t' v' c' -> Q tt c') -> wp Ec (settokenValue t' v') c Q.
Proof. intros (H1 & H2 & H3 & H4 & H5) HQ. apply HQ. unfold Sc. cbn. auto. Qed.
Lemma c_set0 ns t v t' c (Q : unit -> ctx -> Prop) :
  Sc ns t v c -> (forall c', Sc ns t' VNil c' -> Q tt c') -> wp Ec (setToken t') c Q.
Proof. apply c_set. Qed.
Lemma c_cur ns t v c (Q : tok -> ctx -> Prop) : Sc ns t v c -> Q t c -> wp Ec curTok c Q.
Proof. intros (H1 & H2 & H3 & <- & H5) HQ. exact HQ. Qed.
Lemma c_val_ ns t v c (Q : tval -> ctx -> Prop) : Sc ns t v c -> Q v c -> wp Ec (ask c_val) c Q.
Proof. intros (H1 & H2 & H3 & H4 & <-) HQ. exact HQ. Qed.
Lemma c_text_ ns t v c (Q : str -> ctx -> Prop) : Sc ns t v c -> Q T c -> wp Ec (ask c_text) c Q.
Proof. intros (<- & _) HQ. exact HQ. Qed.
Lemma c_opt ns t v c (f : opts -> bool) (Q : bool -> ctx -> Prop) : Sc ns t v c -> Q (f o) c -> wp Ec (option_on f) c Q.
Proof. intros (_ & <- & _). exact (fun H => H). Qed.
Lemma c_push ns t v c n (Q : unit -> ctx -> Prop) :
  Sc ns t v c -> (forall c', Sc (ns ++ [n]) t v c' -> Q tt c') -> wp Ec (pushName n) c Q.
Proof. intros (H1 & H2 & H3 & H4 & H5) HQ. apply HQ. unfold Sc. cbn. rewrite H3. auto. Qed.
Lemma c_pop ns t v c n (Q : unit -> ctx -> Prop) :
  Sc (ns ++ [n]) t v c -> (forall c', Sc ns t v c' -> Q tt c') -> wp Ec popName c Q.
Proof.
  intros (H1 & H2 & H3 & H4 & H5) HQ. unfold wp, popName.
  destruct (c_names c) eqn:En; [destruct ns; discriminate|]. rewrite H3. apply HQ. unfold Sc. cbn.
  rewrite removelast_last. auto.
Qed.
Lemma c_add ns t v c e (Q : expr -> ctx -> Prop) :
  Sc ns t v c -> (forall c', Sc ns t v c' -> Q e c') -> wp Ec (addDefinition e) c Q.
Proof. intros (H1 & H2 & H3 & H4 & H5) HQ. unfold addDefinition. apply wp_bind, wp_modify, wp_ret, HQ. unfold Sc. cbn. auto. Qed.
Lemma c_qual ns t v c n (Q : str -> ctx -> Prop) :
  Sc ns t v c -> (forall s, Q s c) -> wp Ec (qualifiedName n) c Q.
Proof. intros _ HQ. apply HQ. Qed.
(** the tokens whose text can be asked for *)
Definition texted (t : tok) : bool :=
  match t with TInteger | TFloat | TBoolean | TDefault | TVariable | TConcatenatedString | THeredoc => false | _ => true end.
Lemma c_tokenString ns t v c (Q : str -> ctx -> Prop) :
  Sc ns t v c -> vg t v -> texted t = true \/ o_workflow o = true -> (forall s, Q s c) -> wp Ec tokenString c Q.
Proof.
  intros (H1 & H2 & H3 & H4 & H5) [G _] Ht HQ. unfold tokenString. apply wp_bind, wp_ask. rewrite H5.
  destruct v; try (apply wp_ret, HQ); try (apply wp_ask, HQ);
    (apply wp_throw; destruct Ht as [Ht|Ht]; [destruct t; discriminate|exact Ht]).
Qed.
Lemma c_value ns t v c (Q : expr -> ctx -> Prop) :
  Sc ns t v c -> vg t v -> t = THeredoc \/ t = TConcatenatedString -> (forall e, spine e = true -> Q e c) -> wp Ec value_expr c Q.
Proof.
  intros (H1 & H2 & H3 & H4 & H5) [G _] Ht HQ. unfold value_expr. apply wp_bind, wp_ask. rewrite H5.
  destruct Ht as [-> | ->]; destruct v; try discriminate; apply wp_ret, HQ; exact G.
Qed.

(** ** The recursive functions *)
Definition digit_next (c : ctx) : Prop := exists d w, rune_at (c_pos c) c = inl (d, w) /\ isDecimalDigit d = true.
Definition needs (A : Type) (f : fn A) : bool :=
  match f with FNextToken | FDelim _ _ _ _ _ _ _ | FApply _ _ _ _ _ _ _ => false | _ => true end.
Definition gives (A : Type) (f : fn A) : bool :=
  match f with FApply _ _ _ _ _ _ _ => false | _ => true end.
Definition args_ok (A : Type) (f : fn A) : Prop :=
  match f with
  | FStatements _ acc => forallb stmt acc = true
  | FExpressions _ p acc => p = PStepProperty -> o_workflow o = true
  | FRelLoop e | FAssignLoop e | FSelectLoop e | FLevelLoop _ e | FPrimaryLoop e | FCall e => spine e = true
  | FBodies title acc => title <> None
  | FActivities _ | FStepDecl _ _ _ _ => o_workflow o = true
  | FEppLoop acc => forallb stmt acc = true
  | _ => True
  end.
Definition res_ok (A : Type) (f : fn A) : A -> Prop :=
  match f in fn A return A -> Prop with
  | FNextToken => fun _ => True
  | FDelim _ _ _ _ _ _ _ => fun _ => True
  | FApply _ _ _ _ _ _ _ => fun _ => True
  | FStatements _ acc => fun l => forallb stmt l = true
  | FCommas acc => fun l => (List.length acc <= List.length l)%nat
  | FParse _ _ | FParameterType | FDotted _ _ | FIf _ | FEppLoop _
  | FRelationship | FRelLoop _ | FAssignment | FAssignLoop _ | FExpression | FSelectLoop _
  | FLevel _ | FLevelLoop _ _ | FUnary | FPrimary | FPrimaryLoop _ | FAtom | FCall _
  | FResourceExpr _ _ _ | FStepDecl _ _ _ _ => fun e => spine e = true
  | _ => fun _ => True
  end.
(** what is known of the token at the end *)
Definition after (A : Type) (f : fn A) (c : ctx) (t : tok) : Prop :=
  match f with
  | FNextToken => digit_next c -> t = TInteger \/ t = TFloat
  | FDelim d _ _ _ _ _ _ => d <> "/"%ch -> t = TString
  | _ => True
  end.
Definition calms (rec : forall A, fn A -> M A) : Prop :=
  forall A (f : fn A) ns t v c, Sc ns t v c -> (needs f = true -> vg t v) -> args_ok f ->
    wp Ec (rec A f) c (fun a c' => exists t' v', Sc ns t' v' c' /\ (gives f = true -> vg t' v') /\ res_ok f a /\ after f c t').
End Text.
Arguments Sc : simpl never.
Arguments Ec : simpl never.
Arguments vg : simpl never.
Arguments post : simpl never.
Global Opaque Sc.

Ltac c_frame :=
  match goal with
  | HS : Sc _ _ _ _ _ ?c |- wp _ ?m ?c _ =>
    let a := fresh "a" in let c' := fresh "c" in let HS' := fresh "HS" in
    apply (@c_soft _ _ _ m _ _ _ c _ ltac:(solve [auto with softly]) HS);
    cbn beta; intros a c' HS'; clear HS; try clear c
  end.
Ltac c_rec :=
  match goal with
  | REC : calms _ _ ?r, HS : Sc _ _ ?ns ?t ?v ?c |- wp _ (?r _ ?f) ?c _ =>
    let a := fresh "a" in let c' := fresh "c" in let t' := fresh "t" in let v' := fresh "v" in
    let HS' := fresh "HS" in let HG := fresh "HG" in let HR := fresh "HR" in let HA := fresh "HA" in
    eapply wp_weaken;
    [ eapply (@REC _ f ns t v c);
      [ exact HS | cbn [needs]; first [discriminate | intros _; try assumption] | cbn [args_ok]; try first [exact I|assumption|discriminate|reflexivity] ]
    | cbn beta; intros a c' (t' & v' & HS' & HG & HR & HA); cbn [res_ok gives after] in HR, HG, HA;
      try specialize (HG eq_refl); try match type of HA with context [digit_next _ ] => clear HA | True => clear HA end; clear HS; try clear c ]
  end.
Ltac c_call L :=
  match goal with HS : Sc _ _ _ ?t ?v ?c |- wp _ _ ?c _ =>
    let a := fresh "a" in let c' := fresh "c" in let t' := fresh "t" in let v' := fresh "v" in
    let HS' := fresh "HS" in let HG := fresh "HG" in let HR := fresh "HR" in
    eapply wp_weaken;
    [ eapply L; try exact HS; try assumption
    | cbn beta; intros a c' (t' & v' & HS' & HG & HR); cbn beta in HR; try specialize (HG eq_refl); clear HS; try clear c ]
  end.
Ltac c_clr := repeat match goal with H : Sc _ _ _ _ _ _ |- _ => clear H end.
Ltac c_sub := fail.
Ltac c1 :=
  match goal with
  | |- wp _ (bind _ _) _ _ => apply wp_bind
  | |- wp _ (ret _) _ _ => apply wp_ret; cbn beta
  | |- wp _ curTok _ _ => eapply c_cur; [eassumption|]
  | |- wp _ (ask c_val) _ _ => eapply c_val_; [eassumption|]
  | |- wp _ (ask c_text) _ _ => eapply c_text_; [eassumption|]
  | |- wp _ (option_on _) _ _ => eapply c_opt; [eassumption|]
  | |- wp _ (qualifiedName _) _ _ => eapply c_qual; [eassumption|intros]
  | HS : Sc _ _ _ _ _ ?c |- wp _ (settokenValue _ _) ?c _ => eapply c_set; [exact HS|let c' := fresh "c" in intros c' ?; clear HS; try clear c]
  | HS : Sc _ _ _ _ _ ?c |- wp _ (setToken _) ?c _ => eapply c_set0; [exact HS|let c' := fresh "c" in intros c' ?; clear HS; try clear c]
  | HS : Sc _ _ _ _ _ ?c |- wp _ (addDefinition _) ?c _ => eapply c_add; [exact HS|let c' := fresh "c" in intros c' ?; clear HS; try clear c]
  | |- wp _ tokenString _ _ => eapply c_tokenString; [eassumption|eassumption|first [left; reflexivity|left; assumption|right; assumption|idtac]|intros]
  | |- wp _ (unterminatedQuote _ _) _ _ => unfold unterminatedQuote
  | |- wp _ (unexpected_char _ _) _ _ => unfold unexpected_char
  | |- wp _ unexpectedToken _ _ => unfold unexpectedToken
  | |- wp _ (issue _) _ _ => exact I
  | |- wp _ (issue2 _ _) _ _ => exact I
  | |- wp _ (throw _) _ _ => first [exact I | exfalso; discriminate]
  | |- wp _ (if tok_eqb ?t ?t' then _ else _) _ _ => destruct (tok_eqb t t') eqn:?
  | |- wp _ (if negb (tok_eqb ?t ?t') then _ else _) _ _ => destruct (tok_eqb t t') eqn:?; cbn [negb]
  | |- wp _ (match ?x with _ => _ end) _ _ =>
    lazymatch type of x with
    | expr => fail
    | list expr => fail
    | option (expr * bool) => fail
    | _ => first [is_var x; destruct x | destruct x eqn:?]
    end
  | |- wp _ _ _ _ => c_sub
  | |- wp _ (_ _) _ _ => c_rec
  | |- wp _ _ _ _ => c_frame
  end.
Ltac c_go := repeat (cbn beta iota; c1).
Ltac c_fin := match goal with HS : Sc _ _ _ ?t ?v ?c |- post _ _ _ _ _ _ ?c => exists t, v; split; [exact HS|split; [first [let X := fresh in intros X; discriminate X|intros _]|cbn beta]] end.
