(** * RngSpec: what every function of the parser does to the range *)
From Verif Require Import Base Float Tokens Ast Ctx Locator Lexer Parser Wp RngBase.
From Coq Require Import Lia ZifyBool.

Definition needs (A : Type) (f : fn A) : bool :=
  match f with FNextToken | FDelim _ _ _ _ _ _ _ | FApply _ _ _ _ _ _ _ => false | _ => true end.
Definition gives (A : Type) (f : fn A) : bool :=
  match f with FParse _ _ | FStatements _ _ | FEppLoop _ | FApply _ _ _ _ _ _ _ => false | _ => true end.
Definition wf_producer (p : producer) : bool :=
  match p with PStepProperty | PStateAttribute | PReturnParameter | PAttributeAlias => true | _ => false end.
Definition owithins (lo hi : Z) (o : option (list expr)) : Prop :=
  match o with Some l => Forall (within lo hi) l | None => True end.
Definition owithin (lo hi : Z) (x : option expr) : Prop := match x with Some e => within lo hi e | None => True end.
Definition args_ok (A : Type) (f : fn A) (lo q p s : Z) : Prop :=
  match f with
  | FNextToken => 0 <= lo <= p
  | FDelim _ _ _ _ ec start segs => 0 <= lo /\ lo <= start <= p /\ (ec <> 0 -> start < p) /\ lo <= s <= p /\ owithins lo p segs
  | FApply _ _ _ _ _ _ _ | FActivities _ | FStepDecl _ _ _ _ => False
  | FParse _ _ => True
  | FStatements _ acc => chain lo q acc
  | FCommas acc | FAttrOps acc | FHostnames acc | FCaseOptions acc => q = p /\ Forall (within lo p) acc
  | FExpressions _ pr acc => q = p /\ wf_producer pr = false /\ chain lo p acc
  | FRelLoop e | FAssignLoop e | FSelectLoop e | FLevelLoop _ e | FPrimaryLoop e | FCall e => q = p /\ within lo p e
  | FResourceExpr st e _ => q = p /\ lo <= st <= p /\ within lo p e
  | FBodies title acc => q = p /\ owithin lo p title /\ Forall (within lo p) acc
  | FDotted st _ => lo <= st <= p
  | FEppLoop acc => lo = 0 /\ q = p /\ chain 0 p acc
  | _ => True
  end.
Definition res_ok (A : Type) (f : fn A) (lo q p s p' s' : Z) : A -> Prop :=
  match f in fn A return A -> Prop with
  | FNextToken => fun _ => p <= s'
  | FDelim _ _ _ _ _ _ segs => fun r => owithins lo p' r /\ (segs = None -> s' = s)
  | FApply _ _ _ _ _ _ _ => fun _ => False
  | FStatements _ _ | FExpressions _ _ _ => fun l => chain lo p' l
  | FCommas _ | FAttrOps _ | FHostnames _ | FCaseOptions _ | FBodies _ _ | FActivities _ => fun l => Forall (within lo p') l
  | FRelLoop e | FAssignLoop e | FSelectLoop e | FLevelLoop _ e | FPrimaryLoop e | FCall e => fun a => within lo p' a /\ eend e <= eend a
  | FEppLoop _ => fun a => within 0 p' a
  | FParse _ _ | FRelationship | FAssignment | FExpression | FLevel _ | FUnary | FPrimary | FAtom | FParameterType | FIf _
  | FResourceExpr _ _ _ | FDotted _ _ | FStepDecl _ _ _ _ => fun a => within lo p' a /\ q <= eend a
  end.
Section Text.
Variable T : str.
Variable o : opts.
Definition ranged (rec : forall A, fn A -> M A) : Prop :=
  forall A (f : fn A) lo q p t s v c,
    Sr T o p t s v c -> (needs f = true -> VR lo q p t s v) -> args_ok f lo q p s ->
    wp Er (rec A f) c (fun a c' => exists p' t' s' v',
      Sr T o p' t' s' v' c' /\ p <= p' /\ (gives f = true -> VR lo p' p' t' s' v') /\ res_ok f lo q p s p' s' a).
Lemma Sr_range p t s v c : Sr T o p t s v c -> 0 <= p <= zlen T.
Proof. intros (_ & _ & _ & _ & _ & _ & _ & _ & H & _). exact H. Qed.
Lemma VR_range lo q p t s v : VR lo q p t s v -> 0 <= lo /\ lo <= s <= p /\ lo <= q <= p.
Proof. intros (H1 & H2 & H3 & _). lia. Qed.
Lemma look_facts p r w : look T p r w -> 0 <= w /\ p + w <= zlen T /\ (r <> 0 -> 1 <= w).
Proof. intros (H1 & H2 & H3 & _). auto. Qed.
End Text.
Arguments wf_producer : simpl never.

(** ** Tactics *)
(** bounds of every tree in sight, then arithmetic *)
Ltac z_look := repeat match goal with H : look ?T ?p ?r ?w |- _ => lazymatch goal with _ : p + w <= zlen T |- _ => fail | _ => destruct (look_facts H) as (? & ? & ?) end end.
Ltac z_spans :=
  repeat match goal with
  | H : within ?lo ?hi ?e |- _ =>
    lazymatch goal with _ : spanned lo hi e |- _ => fail | _ => pose proof (within_span H) end
  end.
Ltac zz := z_spans; unfold spanned, eend, byteOffset, byteLength in *; cbn [epos p_off p_len] in *; lia.
Ltac r_clr := repeat match goal with HS : Sr _ _ _ _ _ _ ?c |- wp _ _ ?c' _ => tryif constr_eq c c' then fail else clear HS end.
Ltac r_rng :=
  repeat match goal with
  | H : Sr _ _ ?p _ _ _ _ |- _ => lazymatch goal with _ : 0 <= p <= _ |- _ => fail | _ => pose proof (Sr_range H) end
  end.
Ltac r_in := intros; cbv beta iota; z_look; r_rng; r_clr.
Ltac r_hook := fail.
Ltac r_case :=
  match goal with
  | |- wp _ (if tok_eqb ?t ?t' then _ else _) _ _ => destruct (tok_eqb t t') eqn:?
  | |- wp _ (if negb (tok_eqb ?t ?t') then _ else _) _ _ => destruct (tok_eqb t t') eqn:?; cbn [negb]
  | |- wp _ (match ?x with _ => _ end) _ _ =>
    lazymatch type of x with
    | expr => fail
    | option (expr * bool) => fail
    | _ => first [is_var x; destruct x | destruct x eqn:?]
    end
  end.
Ltac r0 :=
  match goal with
  | |- wp _ (bind _ _) _ _ => apply wp_bind
  | |- wp _ (ret _) _ _ => apply wp_ret; cbv beta iota
  | |- wp _ (issue _) _ _ => exact Logic.I
  | |- wp _ (issue2 _ _) _ _ => exact Logic.I
  | |- wp _ (throw _) _ _ => exact Logic.I
  | |- wp _ (setPos _) _ (fun _ _ => wp _ (issue _) _ _) => exact Logic.I
  | |- wp _ (setPos _) _ (fun _ _ => wp _ (issue2 _ _) _ _) => exact Logic.I
  | |- wp _ toTokenStart _ (fun _ _ => wp _ (issue _) _ _) => exact Logic.I
  | |- wp _ toTokenStart _ (fun _ _ => wp _ (issue2 _ _) _ _) => exact Logic.I
  | |- wp _ (unterminatedQuote _ _) _ _ => exact Logic.I
  | |- wp _ (unexpected_char _ _) _ _ => exact Logic.I
  | |- wp _ unexpectedToken _ _ => exact Logic.I
  | |- wp _ getPos _ _ => eapply r_getPos; [eassumption|]
  | |- wp _ (setPos _) _ _ => eapply r_setPos; [eassumption|try lia|r_in]
  | |- wp _ (advance _) _ _ => eapply r_advance; [eassumption|try lia|try lia|r_in]
  | |- wp _ (ask c_tsp) _ _ => eapply r_tsp; [eassumption|]
  | |- wp _ tokStart _ _ => eapply r_tsp; [eassumption|]
  | |- wp _ curTok _ _ => eapply r_curTok; [eassumption|]
  | |- wp _ (ask c_val) _ _ => eapply r_val; [eassumption|]
  | |- wp _ (ask c_text) _ _ => eapply r_text; [eassumption|]
  | |- wp _ (option_on _) _ _ => eapply r_opt; [eassumption|]
  | |- wp _ (isLetterM _) _ _ => eapply r_ask; [eassumption|r_in]
  | |- wp _ (ask c_radix) _ _ => eapply r_ask; [eassumption|r_in]
  | |- wp _ (qualifiedName _) _ _ => eapply r_ask; [eassumption|r_in]
  | |- wp _ (span _) _ _ => eapply r_span; [eassumption|]
  | |- wp _ (settokenValue _ _) _ _ => eapply r_set; [eassumption|r_in]
  | |- wp _ (setToken _) _ _ => eapply r_setToken; [eassumption|r_in]
  | |- wp _ (modify (with_tsp _)) _ _ => eapply r_with_tsp; [eassumption|r_in]
  | |- wp _ (modify (with_radix _)) _ _ => eapply r_radix; [eassumption|r_in]
  | |- wp _ (modify (fun c => with_tsp (c_pos c) c)) _ _ => eapply r_tsp_pos; [eassumption|r_in]
  | |- wp _ (modify (fun c => with_bol (c_pos c) c)) _ _ => eapply r_bol_pos; [eassumption|r_in]
  | |- wp _ (modify (fun c => with_tok _ (c_val c) c)) _ _ => eapply r_retok; [eassumption|r_in]
  | |- wp _ (modify (fun x => if _ then _ else x)) _ _ => eapply r_jump; [eassumption|]
  | |- wp _ (pushName _) _ _ => eapply r_push; [eassumption|r_in]
  | |- wp _ popName _ _ => eapply r_pop; [eassumption|r_in]
  | |- wp _ tokenString _ _ => eapply r_tokenString; [eassumption|r_in]
  | |- wp _ (assertToken _) _ _ => eapply r_assert; [eassumption|r_in]
  | |- wp _ peek _ _ => eapply r_peek; [eassumption|r_in]
  | |- wp _ (peekAt _) _ _ => eapply r_peekAt; [eassumption|try lia|r_in]
  | |- wp _ next _ _ => eapply r_next; [eassumption|r_in]
  | |- wp _ (from _) _ _ => eapply r_from; [eassumption|try lia|r_in]
  end.
Ltac r1 := first [r0 | r_hook].
Ltac r := repeat r1.
