(** * ShapeBase: the invariant behind C18, C20, C24 and C27, and its tactics *)
From Verif Require Import Base Float Tokens Ast Ctx Lexer Parser Wp LexFrame SpecVisit SpecValidate SpecShape.

Section Opts.
Variable o : opts.

(** the names known inside a node *)
Definition naming (ns : list str) (e : expr) (ns' : list str) : Prop :=
  match e with
  | EDef _ (DClass _) q _ _ => exists n, q = join (lit "::") (ns ++ [n]) /\ ns' = ns ++ [n]
  | EFunc _ true n _ _ _ => ns' = ns ++ [n]
  | EStep _ q SWorkflow _ _ => exists n, q = join (lit "::") (ns ++ [n]) /\ ns' = ns ++ [n]
  | EStep _ q _ _ _ => (exists n, q = join (lit "::") (ns ++ [n])) /\ ns' = ns
  | EConcat _ _ => True
  | _ => ns' = ns
  end.
Definition listed (ds : list expr) (e : expr) : Prop :=
  is_definition e = true -> exists q, In (set_pos q e) ds.
Inductive ok (ds : list expr) : list str -> expr -> Prop :=
| ok_intro ns e ns' : naming ns e ns' -> grammar e -> allowed o e -> listed ds e ->
    Forall (ok ds ns') (children e) -> ok ds ns e.

Lemma ok_mono ds ds' : incl ds ds' -> forall e ns, ok ds ns e -> ok ds' ns e.
Proof.
  intros Hi e. induction e as [e IH] using expr_children_ind. intros ns H. inversion H as [ns0 e0 ns' H1 H2 H3 H4 H5]; subst.
  econstructor; eauto.
  - intros Hd. destruct (H4 Hd) as (q & Hq). eauto.
  - rewrite Forall_forall in *. eauto.
Qed.

Definition G (f : expr -> bool) (ns : list str) (ds : list expr) (e : expr) : Prop := ok ds ns e /\ f e = true.
Definition GL f ns ds l := Forall (G f ns ds) l.
Definition GO f ns ds (x : option expr) := match x with Some e => G f ns ds e | None => True end.
Definition GLO f ns ds (x : option (list expr)) := match x with Some l => GL f ns ds l | None => True end.
Definition is_string_node e := match e with EConcat _ _ | EHeredoc _ _ _ => true | _ => false end.
Definition VO ds (v : tval) : Prop := match v with VExpr e => forall ns, G is_string_node ns ds e | _ => True end.

Lemma G_mono f ns ds ds' e : incl ds ds' -> G f ns ds e -> G f ns ds' e.
Proof. intros Hi [H1 H2]. split; [eapply ok_mono; eauto|exact H2]. Qed.
Lemma GL_mono f ns ds ds' l : incl ds ds' -> GL f ns ds l -> GL f ns ds' l.
Proof. intros Hi. apply Forall_impl. intros e. now apply G_mono. Qed.
Lemma GO_mono f ns ds ds' x : incl ds ds' -> GO f ns ds x -> GO f ns ds' x.
Proof. intros Hi. destruct x; cbn; [now apply G_mono|auto]. Qed.
Lemma GLO_mono f ns ds ds' x : incl ds ds' -> GLO f ns ds x -> GLO f ns ds' x.
Proof. intros Hi. destruct x; cbn; [now apply GL_mono|auto]. Qed.
Lemma VO_mono ds ds' v : incl ds ds' -> VO ds v -> VO ds' v.
Proof. intros Hi. destruct v; cbn; auto. intros H ns. eapply G_mono; eauto. Qed.

(** tokens that exist only with an option *)
Definition gate (t : tok) : Prop :=
  match t with
  | TPlan => o_tasks o = true
  | TRenderString | TRenderExpr => o_epp o = true
  | _ => True
  end.
(** the value that comes with an operator, or with one of two keywords *)
Definition paired (t : tok) (v : tval) : Prop :=
  match t with
  | TInEdge | TInEdgeSub | TOutEdge | TOutEdgeSub | TAssign | TAddAssign | TSubtractAssign | TFarrow | TParrow
  | TMatch | TNotMatch | TMultiply | TDivide | TRemainder | TAdd | TSubtract | TLshift | TRshift
  | TEqual | TNotEqual | TLess | TLessEqual | TGreater | TGreaterEqual => v = VNil
  | TProduces => v = VStr (lit "produces")
  | TConsumes => v = VStr (lit "consumes")
  | _ => True
  end.
(** the definitions found so far are definitions, and trees of the right shape *)
Definition listing (ds : list expr) : Prop := Forall (fun d => is_listed d = true /\ exists ns, ok ds ns d) ds.
(** the state: with [b = true] the token value can be relied on too *)
Definition St (b : bool) (ns : list str) (ds : list expr) (c : ctx) : Prop :=
  c_opts c = o /\ c_names c = ns /\ c_defs c = ds /\ gate (c_tok c) /\ (b = true -> VO ds (c_val c) /\ paired (c_tok c) (c_val c)) /\ listing ds.
Definition Er (e : err) (c : ctx) : Prop := c_opts c = o /\ gate (c_tok c).
Definition post (b : bool) (ns : list str) (ds : list expr) (A : Type) (P : list expr -> A -> Prop) : A -> ctx -> Prop :=
  fun a c' => exists ds', incl ds ds' /\ St b ns ds' c' /\ P ds' a.

Lemma St_weaken b ns ds c : St b ns ds c -> St false ns ds c.
Proof. unfold St. intuition discriminate. Qed.
Lemma St_frame b ns ds c c' : frame c c' -> St b ns ds c -> St b ns ds c'.
Proof. intros (p & n & x & t & r & ->). unfold St. cbn. auto. Qed.
Lemma St_Er b ns ds c e : St b ns ds c -> Er e c.
Proof. unfold St, Er. tauto. Qed.
Lemma wp_framed A (m : M A) b ns ds c (Q : A -> ctx -> Prop) :
  framed m -> St b ns ds c -> (forall a c', St b ns ds c' -> Q a c') -> wp Er m c Q.
Proof.
  intros Hm Hs HQ. specialize (Hm c). unfold wp in *. destruct (m c) as [a c'|e c'|]; [| |exact I].
  - apply HQ. eapply St_frame; eauto.
  - eapply St_Er, St_frame; eauto.
Qed.
Lemma wp_set b ns ds c t v (Q : unit -> ctx -> Prop) :
  St b ns ds c -> gate t -> VO ds v -> paired t v -> (forall c', St true ns ds c' -> Q tt c') -> wp Er (settokenValue t v) c Q.
Proof. intros (H1 & H2 & H3 & H4 & H5 & H6) Hg Hv Hp HQ. apply HQ. unfold St. cbn. repeat split; auto; try (apply H5; reflexivity). Qed.
Lemma wp_set0 b ns ds c t (Q : unit -> ctx -> Prop) :
  St b ns ds c -> gate t -> paired t VNil -> (forall c', St true ns ds c' -> Q tt c') -> wp Er (setToken t) c Q.
Proof. intros Hs Hg Hp HQ. unfold setToken. apply (wp_set (v := VNil) Hs Hg I Hp HQ). Qed.
Lemma wp_paired ns ds c : St true ns ds c -> paired (c_tok c) (c_val c).
Proof. intros (H1 & H2 & H3 & H4 & H5 & H6). apply H5. reflexivity. Qed.
Lemma wp_val_at ns ds c (Q : tval -> ctx -> Prop) :
  St true ns ds c -> (VO ds (c_val c) -> Q (c_val c) c) -> wp Er (ask c_val) c Q.
Proof. intros (H1 & H2 & H3 & H4 & H5 & H6) HQ. apply HQ. apply H5. reflexivity. Qed.
Lemma wp_curTok_at b ns ds c (Q : tok -> ctx -> Prop) :
  St b ns ds c -> (gate (c_tok c) -> Q (c_tok c) c) -> wp Er curTok c Q.
Proof. intros (H1 & H2 & H3 & H4 & H5 & H6) HQ. apply HQ, H4. Qed.
Lemma wp_curTok b ns ds c (Q : tok -> ctx -> Prop) :
  St b ns ds c -> (forall t, gate t -> Q t c) -> wp Er curTok c Q.
Proof. intros (H1 & H2 & H3 & H4 & H5 & H6) HQ. apply HQ, H4. Qed.
Lemma wp_val ns ds c (Q : tval -> ctx -> Prop) :
  St true ns ds c -> (forall v, VO ds v -> Q v c) -> wp Er (ask c_val) c Q.
Proof. intros (H1 & H2 & H3 & H4 & H5 & H6) HQ. apply HQ. apply H5. reflexivity. Qed.
Lemma wp_opt b ns ds c (f : opts -> bool) (Q : bool -> ctx -> Prop) :
  St b ns ds c -> Q (f o) c -> wp Er (option_on f) c Q.
Proof. intros (<- & _). exact (fun H => H). Qed.
Lemma wp_opt_ask b ns ds c (f : ctx -> opts) (Q : opts -> ctx -> Prop) :
  St b ns ds c -> f = c_opts -> Q o c -> wp Er (ask f) c Q.
Proof. intros (<- & _) ->. exact (fun H => H). Qed.
Lemma post_intro b ns ds0 ds A (P : list expr -> A -> Prop) a c :
  incl ds0 ds -> St b ns ds c -> P ds a -> post b ns ds0 P a c.
Proof. intros. exists ds. auto. Qed.
Lemma wp_push ns ds c n (Q : unit -> ctx -> Prop) :
  St true ns ds c -> (forall c', St true (ns ++ [n]) ds c' -> Q tt c') -> wp Er (pushName n) c Q.
Proof. intros (H1 & H2 & H3 & H4 & H5 & H6) HQ. apply HQ. unfold St. cbn. rewrite H2. repeat split; auto; try (apply H5; reflexivity). Qed.
Lemma wp_pop ns ds c n (Q : unit -> ctx -> Prop) :
  St true (ns ++ [n]) ds c -> (forall c', St true ns ds c' -> Q tt c') -> wp Er popName c Q.
Proof.
  intros (H1 & H2 & H3 & H4 & H5 & H6) HQ. unfold wp, popName.
  destruct (c_names c) eqn:En; [destruct ns; discriminate|]. rewrite H2. apply HQ. unfold St. cbn.
  rewrite removelast_last. repeat split; auto; try (apply H5; reflexivity).
Qed.
Lemma wp_qual ns ds c n (Q : str -> ctx -> Prop) :
  St true ns ds c -> Q (join (lit "::") (ns ++ [n])) c -> wp Er (qualifiedName n) c Q.
Proof. intros (H1 & <- & H3 & H4 & H5 & H6) HQ. exact HQ. Qed.
Definition okp ds ns e := exists ns', naming ns e ns' /\ grammar e /\ allowed o e /\ Forall (ok ds ns') (children e).
Lemma okp_mono ds ds' ns e : incl ds ds' -> okp ds ns e -> okp ds' ns e.
Proof.
  intros Hi (ns' & H1 & H2 & H3 & H4). exists ns'. repeat split; auto.
  eapply Forall_impl; [|exact H4]. intros x. now apply ok_mono.
Qed.
Lemma set_pos_same e : set_pos (epos e) e = e.
Proof. destruct e; reflexivity. Qed.
Lemma wp_add ns ds c e (Q : expr -> ctx -> Prop) :
  St true ns ds c -> okp ds ns e -> is_expression e = true -> is_listed e = true ->
  (forall ds' c', incl ds ds' -> St true ns ds' c' -> G is_expression ns ds' e -> Q e c') ->
  wp Er (addDefinition e) c Q.
Proof.
  intros (H1 & H2 & H3 & H4 & H5 & H6) Hp Hx Hl HQ. unfold addDefinition. apply wp_bind, wp_modify, wp_ret.
  assert (Hi: incl ds (ds ++ [e])) by (apply incl_appl, incl_refl).
  assert (K: G is_expression ns (ds ++ [e]) e).
  { destruct (okp_mono Hi Hp) as (ns' & N1 & N2 & N3 & N4). split; [|exact Hx].
    econstructor; eauto. intros _. exists (epos e). rewrite set_pos_same. apply in_or_app. right. now left. }
  eapply (HQ (ds ++ [e])); [exact Hi| |exact K].
  unfold St. cbn. rewrite H3. repeat split; auto; [eapply VO_mono; [exact Hi|apply H5; reflexivity]|apply H5; reflexivity|].
  apply Forall_app. split.
  - eapply Forall_impl; [|exact H6]. intros d (D1 & ns' & D2). split; [exact D1|]. exists ns'. eapply ok_mono; eauto.
  - constructor; [|constructor]. split; [exact Hl|]. exists ns. apply K.
Qed.

(** ** Building nodes *)
Lemma G_role f ns ds e : G f ns ds e -> f e = true. Proof. now intros []. Qed.
Lemma G_ok f ns ds e : G f ns ds e -> ok ds ns e. Proof. now intros []. Qed.
Lemma GL_all f ns ds l : GL f ns ds l -> all f l.
Proof. intros H. apply forallb_forall. intros x Hx. unfold GL in H. rewrite Forall_forall in H. apply H, Hx. Qed.
Lemma GL_ok f ns ds l : GL f ns ds l -> Forall (ok ds ns) l.
Proof. apply Forall_impl. intros e. apply G_ok. Qed.
Lemma GO_opt f ns ds x : GO f ns ds x -> opt f x.
Proof. destruct x; cbn; auto. apply G_role. Qed.
Lemma GO_ok f ns ds x : GO f ns ds x -> Forall (ok ds ns) (opt_list x).
Proof. destruct x; cbn; auto. intros H. constructor; [eapply G_ok, H|constructor]. Qed.
Lemma GL_nil f ns ds : GL f ns ds []. Proof. constructor. Qed.
Lemma GL_cons f ns ds e l : G f ns ds e -> GL f ns ds l -> GL f ns ds (e :: l). Proof. now constructor. Qed.
Lemma GL_app f ns ds l l' : GL f ns ds l -> GL f ns ds l' -> GL f ns ds (l ++ l'). Proof. intros. now apply Forall_app. Qed.
Lemma GL_sub f g ns ds l : (forall e, f e = true -> g e = true) -> GL f ns ds l -> GL g ns ds l.
Proof. intros H. apply Forall_impl. intros e [? ?]. split; auto. Qed.
Lemma G_sub f g ns ds e : (forall e, f e = true -> g e = true) -> G f ns ds e -> G g ns ds e.
Proof. intros H [? ?]. split; auto. Qed.
Lemma node f ns ds e ns' : naming ns e ns' -> grammar e -> allowed o e -> is_definition e = false ->
  Forall (ok ds ns') (children e) -> f e = true -> G f ns ds e.
Proof. intros. split; [|assumption]. econstructor; eauto. intros ?. congruence. Qed.

Lemma type_expr e : is_type e = true -> is_expression e = true. Proof. destruct e; cbn; congruence. Qed.
Lemma block_expr e : is_block e = true -> is_expression e = true. Proof. destruct e; cbn; congruence. Qed.
Lemma host_expr e : is_host e = true -> is_expression e = true. Proof. destruct e; cbn; congruence. Qed.
Lemma string_expr e : is_string_node e = true -> is_expression e = true. Proof. destruct e; cbn; congruence. Qed.
Lemma string_host e : is_string_node e = true -> is_host e = true. Proof. destruct e; cbn; congruence. Qed.
Lemma named_expr e : is_named_access e = true -> is_expression e = true. Proof. destruct e; cbn; congruence. Qed.
Lemma expr_stmt e : is_expression e = true -> is_statement e = true. Proof. unfold is_statement. intros ->. reflexivity. Qed.
Lemma hash_expr e : is_hash e = true -> is_expression e = true. Proof. destruct e; cbn; congruence. Qed.
End Opts.

Global Hint Resolve type_expr block_expr host_expr string_expr string_host named_expr expr_stmt hash_expr : roles.
Arguments St : simpl never.
Arguments Er : simpl never.
Arguments post : simpl never.
Arguments G : simpl never.
Arguments GL : simpl never.
Arguments GO : simpl never.
Arguments GLO : simpl never.
Arguments VO : simpl never.
