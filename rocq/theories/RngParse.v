(** * RngParse: the parser's functions keep nodes and positions in range *)
From Verif Require Import Base Float Tokens Ast Ctx Locator Lexer Parser Wp RngBase RngSpec RngLex RngTree.
From Coq Require Import Lia ZifyBool.

(** the lowest offset of the part being parsed *)
Definition low (lo : Z) : Prop := 0 <= lo.
Arguments low : simpl never.
Definition post (T : str) (o : opts) (g : bool) (lo p : Z) (A : Type) (R : Z -> A -> Prop) : A -> ctx -> Prop :=
  fun a c' => exists p' t' s' v', Sr T o p' t' s' v' c' /\ p <= p' /\ (g = true -> VR lo p' p' t' s' v') /\ R p' a.
Arguments post : simpl never.

Ltac r_old := repeat match goal with HV : VR _ _ _ ?t ?s ?v, HS : Sr _ _ ?p ?t' ?s' ?v' _ |- wp _ _ _ _ => tryif constr_eq v v' then fail else clear HV end.
Ltac r_vr := repeat match goal with HV : VR ?lo ?q ?p ?t ?s ?v |- _ => lazymatch goal with _ : lo <= s <= p |- _ => fail | _ => destruct (VR_range HV) as (? & ? & ?) end end.
Ltac r_in ::= intros; cbv beta iota; z_look; r_rng; r_vr; r_clr; r_old.

Ltac s_forall := fail.
Ltac s_within :=
  first [ eapply within_mono; [eassumption|lia|lia]
        | apply within_node; [zz|cbn [children]; s_forall]
        | apply set_rval_within; s_within ].
Ltac s_owithin := first [exact Logic.I | eapply owithin_mono; [eassumption|lia|lia] | cbn [owithin]; s_within].
Ltac s_forall ::=
  match goal with
  | |- Forall _ [] => constructor
  | |- Forall _ (_ :: _) => constructor; [s_within|s_forall]
  | |- Forall _ (_ ++ _) => apply Forall_app; split; s_forall
  | |- Forall _ (opt_list _) => apply owithin_list; s_owithin
  | |- Forall _ (joinHashEntries _) => apply join_within; [lia|eapply chain_mono; [eassumption|lia|lia]]
  | |- Forall _ _ => first [eapply withins_mono; [eassumption|lia|lia] | apply chain_within; eapply chain_mono; [eassumption|lia|lia]]
  end.
Ltac s_chain :=
  match goal with
  | |- chain _ _ [] => exact Logic.I
  | |- chain _ _ (_ ++ [_]) => eapply chain_snoc; [eassumption|s_within|lia|first [lia|zz]]
  | |- chain _ _ _ => eapply chain_mono; [eassumption|lia|lia]
  end.
Ltac s_vr := first [eassumption | eapply VR_low; [eassumption|lia|lia]].
Ltac s1 :=
  match goal with
  | |- True => exact Logic.I
  | |- _ /\ _ => split; s1
  | |- within _ _ _ => s_within
  | |- owithin _ _ _ => s_owithin
  | |- Forall (within _ _) _ => s_forall
  | |- chain _ _ _ => s_chain
  | |- _ = _ => first [reflexivity|assumption|lia]
  | |- _ -> _ => intro; s1
  | |- _ => first [assumption|lia|zz]
  end.
Ltac r_post HH := let a := fresh "a" in let c' := fresh "c" in let p' := fresh "p" in let t' := fresh "t" in let s' := fresh "s" in let v' := fresh "v" in
  intros a c' (p' & t' & s' & v' & HH).
Ltac r_split := repeat match goal with H : _ /\ _ |- _ => lazymatch type of H with (_ <= ?b) /\ (?b <= _) => fail | _ => destruct H end end.
Ltac r_rec :=
  match goal with
  | REC : ranged _ _ ?rr, HL : low ?lo, HS : Sr _ _ ?p ?t ?s ?v ?c |- wp _ (?rr _ FNextToken) ?c _ =>
    eapply (nextToken_r REC (lo := lo)); [exact HS|lia|r_in]
  | REC : ranged _ _ ?rr, HS : Sr _ _ ?p ?t ?s ?v ?c, HV : VR ?lo ?q ?p ?t ?s ?v |- wp _ (?rr _ ?f) ?c _ =>
    eapply wp_weaken;
    [ eapply (@REC _ f lo q p t s v c); [exact HS|intros _; exact HV|cbn [args_ok]; try solve [s1]]
    | let a := fresh "a" in let c' := fresh "c" in let p' := fresh "p" in let t' := fresh "t" in let s' := fresh "s" in let v' := fresh "v" in
      let HS' := fresh "HS" in let Hp := fresh "Hp" in let HG := fresh "HG" in let HR := fresh "HR" in
      intros a c' (p' & t' & s' & v' & HS' & Hp & HG & HR); cbn [res_ok] in HR; cbn [gives] in HG; try specialize (HG eq_refl); r_split; r_in ]
  end.
Ltac r_call Lm :=
  match goal with
  | REC : ranged _ _ ?rr, HL : low ?lo, HS : Sr _ _ ?p ?t ?s ?v ?c |- wp _ _ ?c _ =>
    eapply wp_weaken;
    [ eapply Lm with (lo := lo); try eassumption; try solve [s1]
    | let a := fresh "a" in let c' := fresh "c" in let p' := fresh "p" in let t' := fresh "t" in let s' := fresh "s" in let v' := fresh "v" in
      let HS' := fresh "HS" in let Hp := fresh "Hp" in let HG := fresh "HG" in let HR := fresh "HR" in
      intros a c' (p' & t' & s' & v' & HS' & Hp & HG & HR); cbv beta in HR; try specialize (HG eq_refl); r_split; r_in ]
  end.
Ltac r_mid g R :=
  match goal with HL : low ?lo, HS : Sr ?T ?o ?p _ _ _ ?c |- wp _ _ ?c _ =>
    eapply wp_weaken with (Q := post T o g lo p (R lo));
    [ | let a := fresh "a" in let c' := fresh "c" in let p' := fresh "p" in let t' := fresh "t" in let s' := fresh "s" in let v' := fresh "v" in
      let HS' := fresh "HS" in let Hp := fresh "Hp" in let HG := fresh "HG" in let HR := fresh "HR" in
      intros a c' (p' & t' & s' & v' & HS' & Hp & HG & HR); cbv beta in HR; try specialize (HG eq_refl); r_split; r_in ]
  end.
Ltac r_sub := fail.
Ltac r_hook ::=
  match goal with
  | |- _ => first [r_sub | r_rec]
  end.
Ltac r_hook ::= first [r_sub | r_rec].
Ltac r_fin :=
  match goal with HS : Sr _ _ ?p ?t ?s ?v ?c |- post _ _ _ _ _ _ _ ?c => exists p, t, s, v; split; [exact HS|split; [lia|split; [try (let X := fresh in intros X; first [discriminate X|s_vr])|cbv beta; try solve [s1]]]] end.
Ltac y := repeat first [r1 | r_case; r_split]; try r_fin.

Section Rec.
Variable T : str.
Variable o : opts.
Variable rec : forall A, fn A -> M A.
Hypothesis REC : ranged T o rec.
Hypothesis NOHERE : ~ heredoc T.
Hypothesis NOWF : o_workflow o = false.
Notation L := (zlen T). Notation Sr := (Sr T o). Notation wp := (wp Er). Notation post := (post T o).
Notation start_ lo q p t s v c := (Sr p t s v c -> VR lo q p t s v -> low lo -> _) (only parsing).

Lemma handleKeyword_r lo q p t s v c : Sr p t s v c -> VR lo q p t s v -> low lo -> wp (handleKeyword rec) c (post true lo p (fun p' e => within lo p' e /\ q <= eend e)).
Proof. intros HS HV HL. r_in. unfold handleKeyword. y. Qed.
Lemma argument_r lo q p t s v c : Sr p t s v c -> VR lo q p t s v -> low lo -> wp (argument rec) c (post true lo p (fun p' e => within lo p' e /\ q <= eend e)).
Proof. intros HS HV HL. r_in. unfold argument. r. r_call handleKeyword_r. r. r_case; y. r_call handleKeyword_r. y. Qed.
Ltac r_sub ::= lazymatch goal with
  | |- Wp.wp _ (handleKeyword _) _ _ => r_call handleKeyword_r
  | |- Wp.wp _ (argument _) _ _ => r_call argument_r
  end.
Lemma keyedEntry_r lo q  p t s v c : Sr p t s v c -> VR lo q p t s v -> low lo ->  wp (keyedEntry rec) c (post true lo p (fun p' a => within lo p' a /\ q <= eend a)).
Proof. intros HS HV HL. r_in. unfold keyedEntry. y. Qed.
Ltac r_sub ::= lazymatch goal with
  | |- Wp.wp _ (handleKeyword _) _ _ => r_call handleKeyword_r
  | |- Wp.wp _ (argument _) _ _ => r_call argument_r
  | |- Wp.wp _ (keyedEntry _) _ _ => r_call keyedEntry_r
  end.
Lemma selectorEntry_r lo q  p t s v c : Sr p t s v c -> VR lo q p t s v -> low lo ->  wp (selectorEntry rec) c (post true lo p (fun p' a => within lo p' a /\ q <= eend a)).
Proof. intros HS HV HL. r_in. unfold selectorEntry. y. Qed.
Ltac r_sub ::= lazymatch goal with
  | |- Wp.wp _ (handleKeyword _) _ _ => r_call handleKeyword_r
  | |- Wp.wp _ (argument _) _ _ => r_call argument_r
  | |- Wp.wp _ (keyedEntry _) _ _ => r_call keyedEntry_r
  | |- Wp.wp _ (selectorEntry _) _ _ => r_call selectorEntry_r
  end.
Lemma identifier_r lo q p t s v c (Q : option str -> ctx -> Prop) : Sr p t s v c -> VR lo q p t s v -> low lo ->
  (forall x p' t' s' v' c', p <= p' -> Sr p' t' s' v' c' -> VR lo p' p' t' s' v' -> Q (Some x) c') -> (forall c', Q None c') -> wp (identifier rec) c Q.
Proof.
  intros HS HV HL HQ1 HQ2. r_in. unfold identifier. repeat first [r1|r_case].
  all: first [eapply HQ1; [|eassumption|eassumption]; lia | apply HQ2].
Qed.
Ltac r_sub ::= lazymatch goal with
  | |- Wp.wp _ (handleKeyword _) _ _ => r_call handleKeyword_r
  | |- Wp.wp _ (argument _) _ _ => r_call argument_r
  | |- Wp.wp _ (keyedEntry _) _ _ => r_call keyedEntry_r
  | |- Wp.wp _ (selectorEntry _) _ _ => r_call selectorEntry_r
  | |- Wp.wp _ (identifier _) _ _ => eapply identifier_r; [eassumption|eassumption|eassumption|r_in|r_in]
  end.
Lemma typeName_r lo q p t s v c (Q : option expr -> ctx -> Prop) : Sr p t s v c -> VR lo q p t s v -> low lo ->
  (forall pp n p' t' s' v' c', p <= p' -> Sr p' t' s' v' c' -> VR lo p' p' t' s' v' -> within lo p' (EQRef pp n) -> q <= eend (EQRef pp n) -> Q (Some (EQRef pp n)) c') -> (Q None c) -> wp (typeName rec) c Q.
Proof.
  intros HS HV HL HQ1 HQ2. r_in. unfold typeName. repeat first [r1|r_case].
  - eapply HQ1; [|eassumption|eassumption| |]; [lia|s1|s1].
  - apply HQ2.
Qed.
Ltac r_sub ::= lazymatch goal with
  | |- Wp.wp _ (handleKeyword _) _ _ => r_call handleKeyword_r
  | |- Wp.wp _ (argument _) _ _ => r_call argument_r
  | |- Wp.wp _ (keyedEntry _) _ _ => r_call keyedEntry_r
  | |- Wp.wp _ (selectorEntry _) _ _ => r_call selectorEntry_r
  | |- Wp.wp _ (identifier _) _ _ => eapply identifier_r; [eassumption|eassumption|eassumption|r_in|r_in]
  | |- Wp.wp _ (typeName _) _ _ => eapply typeName_r; [eassumption|eassumption|eassumption|r_in|r_in]
  end.
Lemma arrayExpression_r lo   p t s v c : Sr p t s v c -> VR lo p p t s v -> low lo ->  wp (arrayExpression rec) c (post true lo p (fun p' a => Forall (within lo p') a)).
Proof. intros HS HV HL. r_in. unfold arrayExpression. y. Qed.
Ltac r_sub ::= lazymatch goal with
  | |- Wp.wp _ (handleKeyword _) _ _ => r_call handleKeyword_r
  | |- Wp.wp _ (argument _) _ _ => r_call argument_r
  | |- Wp.wp _ (keyedEntry _) _ _ => r_call keyedEntry_r
  | |- Wp.wp _ (selectorEntry _) _ _ => r_call selectorEntry_r
  | |- Wp.wp _ (identifier _) _ _ => eapply identifier_r; [eassumption|eassumption|eassumption|r_in|r_in]
  | |- Wp.wp _ (typeName _) _ _ => eapply typeName_r; [eassumption|eassumption|eassumption|r_in|r_in]
  | |- Wp.wp _ (arrayExpression _) _ _ => r_call arrayExpression_r
  end.
Lemma parameterType_r lo q  p t s v c : Sr p t s v c -> VR lo q p t s v -> low lo ->  wp (parameterType_body rec) c (post true lo p (fun p' a => within lo p' a /\ q <= eend a)).
Proof. intros HS HV HL. r_in. unfold parameterType_body. y. Qed.
Lemma parameterList_r lo   p t s v c : Sr p t s v c -> VR lo p p t s v -> low lo ->  wp (parameterListOf rec PParameter) c (post true lo p (fun p' a => Forall (within lo p') a)).
Proof. intros HS HV HL. r_in. unfold parameterListOf. y. Qed.
Ltac r_sub ::= lazymatch goal with
  | |- Wp.wp _ (handleKeyword _) _ _ => r_call handleKeyword_r
  | |- Wp.wp _ (argument _) _ _ => r_call argument_r
  | |- Wp.wp _ (keyedEntry _) _ _ => r_call keyedEntry_r
  | |- Wp.wp _ (selectorEntry _) _ _ => r_call selectorEntry_r
  | |- Wp.wp _ (identifier _) _ _ => eapply identifier_r; [eassumption|eassumption|eassumption|r_in|r_in]
  | |- Wp.wp _ (typeName _) _ _ => eapply typeName_r; [eassumption|eassumption|eassumption|r_in|r_in]
  | |- Wp.wp _ (arrayExpression _) _ _ => r_call arrayExpression_r
  | |- Wp.wp _ (parameterListOf _ PParameter) _ _ => r_call parameterList_r
  end.
Lemma parameterList2_r lo   p t s v c : Sr p t s v c -> VR lo p p t s v -> low lo ->  wp (parameterList rec) c (post true lo p (fun p' a => Forall (within lo p') a)).
Proof. intros HS HV HL. r_in. unfold parameterList. y. Qed.
Ltac r_sub ::= lazymatch goal with
  | |- Wp.wp _ (handleKeyword _) _ _ => r_call handleKeyword_r
  | |- Wp.wp _ (argument _) _ _ => r_call argument_r
  | |- Wp.wp _ (keyedEntry _) _ _ => r_call keyedEntry_r
  | |- Wp.wp _ (selectorEntry _) _ _ => r_call selectorEntry_r
  | |- Wp.wp _ (identifier _) _ _ => eapply identifier_r; [eassumption|eassumption|eassumption|r_in|r_in]
  | |- Wp.wp _ (typeName _) _ _ => eapply typeName_r; [eassumption|eassumption|eassumption|r_in|r_in]
  | |- Wp.wp _ (arrayExpression _) _ _ => r_call arrayExpression_r
  | |- Wp.wp _ (parameterListOf _ PParameter) _ _ => r_call parameterList_r
  | |- Wp.wp _ (parameterList _) _ _ => r_call parameterList2_r
  end.
Lemma lambdaParameterList_r lo q  p t s v c : Sr p t s v c -> VR lo q p t s v -> low lo ->  wp (lambdaParameterList rec) c (post true lo p (fun p' a => Forall (within lo p') a)).
Proof. intros HS HV HL. r_in. unfold lambdaParameterList. y. Qed.
Ltac r_sub ::= lazymatch goal with
  | |- Wp.wp _ (handleKeyword _) _ _ => r_call handleKeyword_r
  | |- Wp.wp _ (argument _) _ _ => r_call argument_r
  | |- Wp.wp _ (keyedEntry _) _ _ => r_call keyedEntry_r
  | |- Wp.wp _ (selectorEntry _) _ _ => r_call selectorEntry_r
  | |- Wp.wp _ (identifier _) _ _ => eapply identifier_r; [eassumption|eassumption|eassumption|r_in|r_in]
  | |- Wp.wp _ (typeName _) _ _ => eapply typeName_r; [eassumption|eassumption|eassumption|r_in|r_in]
  | |- Wp.wp _ (arrayExpression _) _ _ => r_call arrayExpression_r
  | |- Wp.wp _ (parameterListOf _ PParameter) _ _ => r_call parameterList_r
  | |- Wp.wp _ (parameterList _) _ _ => r_call parameterList2_r
  | |- Wp.wp _ (lambdaParameterList _) _ _ => r_call lambdaParameterList_r
  end.
Lemma optParameterType_r lo   p t s v c : Sr p t s v c -> VR lo p p t s v -> low lo ->  wp (optParameterType rec) c (post true lo p (fun p' a => owithin lo p' a)).
Proof. intros HS HV HL. r_in. unfold optParameterType. y. Qed.
Ltac r_sub ::= lazymatch goal with
  | |- Wp.wp _ (handleKeyword _) _ _ => r_call handleKeyword_r
  | |- Wp.wp _ (argument _) _ _ => r_call argument_r
  | |- Wp.wp _ (keyedEntry _) _ _ => r_call keyedEntry_r
  | |- Wp.wp _ (selectorEntry _) _ _ => r_call selectorEntry_r
  | |- Wp.wp _ (identifier _) _ _ => eapply identifier_r; [eassumption|eassumption|eassumption|r_in|r_in]
  | |- Wp.wp _ (typeName _) _ _ => eapply typeName_r; [eassumption|eassumption|eassumption|r_in|r_in]
  | |- Wp.wp _ (arrayExpression _) _ _ => r_call arrayExpression_r
  | |- Wp.wp _ (parameterListOf _ PParameter) _ _ => r_call parameterList_r
  | |- Wp.wp _ (parameterList _) _ _ => r_call parameterList2_r
  | |- Wp.wp _ (lambdaParameterList _) _ _ => r_call lambdaParameterList_r
  | |- Wp.wp _ (optParameterType _) _ _ => r_call optParameterType_r
  end.
Lemma parameterName_r lo q  p t s v c : Sr p t s v c -> VR lo q p t s v -> low lo ->  wp (parameterName rec) c (post true lo p (fun p' a => True)).
Proof. intros HS HV HL. r_in. unfold parameterName. y. Qed.
Ltac r_sub ::= lazymatch goal with
  | |- Wp.wp _ (handleKeyword _) _ _ => r_call handleKeyword_r
  | |- Wp.wp _ (argument _) _ _ => r_call argument_r
  | |- Wp.wp _ (keyedEntry _) _ _ => r_call keyedEntry_r
  | |- Wp.wp _ (selectorEntry _) _ _ => r_call selectorEntry_r
  | |- Wp.wp _ (identifier _) _ _ => eapply identifier_r; [eassumption|eassumption|eassumption|r_in|r_in]
  | |- Wp.wp _ (typeName _) _ _ => eapply typeName_r; [eassumption|eassumption|eassumption|r_in|r_in]
  | |- Wp.wp _ (arrayExpression _) _ _ => r_call arrayExpression_r
  | |- Wp.wp _ (parameterListOf _ PParameter) _ _ => r_call parameterList_r
  | |- Wp.wp _ (parameterList _) _ _ => r_call parameterList2_r
  | |- Wp.wp _ (lambdaParameterList _) _ _ => r_call lambdaParameterList_r
  | |- Wp.wp _ (optParameterType _) _ _ => r_call optParameterType_r
  | |- Wp.wp _ (parameterName _) _ _ => r_call parameterName_r
  end.
Lemma parameter_r lo   p t s v c : Sr p t s v c -> VR lo p p t s v -> low lo ->  wp (parameter rec) c (post true lo p (fun p' a => within lo p' a /\ p <= eend a)).
Proof. intros HS HV HL. r_in. unfold parameter. r. cbv zeta. r.
  r_mid true (fun (_ _ : Z) (_ : unit) => True); [y|]. r. r_mid true (fun lo p' a => owithin lo p' a); y. Qed.
Ltac r_sub ::= lazymatch goal with
  | |- Wp.wp _ (handleKeyword _) _ _ => r_call handleKeyword_r
  | |- Wp.wp _ (argument _) _ _ => r_call argument_r
  | |- Wp.wp _ (keyedEntry _) _ _ => r_call keyedEntry_r
  | |- Wp.wp _ (selectorEntry _) _ _ => r_call selectorEntry_r
  | |- Wp.wp _ (identifier _) _ _ => eapply identifier_r; [eassumption|eassumption|eassumption|r_in|r_in]
  | |- Wp.wp _ (typeName _) _ _ => eapply typeName_r; [eassumption|eassumption|eassumption|r_in|r_in]
  | |- Wp.wp _ (arrayExpression _) _ _ => r_call arrayExpression_r
  | |- Wp.wp _ (parameterListOf _ PParameter) _ _ => r_call parameterList_r
  | |- Wp.wp _ (parameterList _) _ _ => r_call parameterList2_r
  | |- Wp.wp _ (lambdaParameterList _) _ _ => r_call lambdaParameterList_r
  | |- Wp.wp _ (optParameterType _) _ _ => r_call optParameterType_r
  | |- Wp.wp _ (parameterName _) _ _ => r_call parameterName_r
  | |- Wp.wp _ (parameter _) _ _ => r_call parameter_r
  end.
Lemma produce_r lo  pr p t s v c : Sr p t s v c -> VR lo p p t s v -> low lo -> wf_producer pr = false -> wp (produce rec pr) c (post true lo p (fun p' a => within lo p' a /\ p <= eend a)).
Proof. intros HS HV HL HP. r_in. unfold produce. destruct pr; try discriminate HP; y. Qed.
Ltac r_sub ::= lazymatch goal with
  | |- Wp.wp _ (handleKeyword _) _ _ => r_call handleKeyword_r
  | |- Wp.wp _ (argument _) _ _ => r_call argument_r
  | |- Wp.wp _ (keyedEntry _) _ _ => r_call keyedEntry_r
  | |- Wp.wp _ (selectorEntry _) _ _ => r_call selectorEntry_r
  | |- Wp.wp _ (identifier _) _ _ => eapply identifier_r; [eassumption|eassumption|eassumption|r_in|r_in]
  | |- Wp.wp _ (typeName _) _ _ => eapply typeName_r; [eassumption|eassumption|eassumption|r_in|r_in]
  | |- Wp.wp _ (arrayExpression _) _ _ => r_call arrayExpression_r
  | |- Wp.wp _ (parameterListOf _ PParameter) _ _ => r_call parameterList_r
  | |- Wp.wp _ (parameterList _) _ _ => r_call parameterList2_r
  | |- Wp.wp _ (lambdaParameterList _) _ _ => r_call lambdaParameterList_r
  | |- Wp.wp _ (optParameterType _) _ _ => r_call optParameterType_r
  | |- Wp.wp _ (parameterName _) _ _ => r_call parameterName_r
  | |- Wp.wp _ (parameter _) _ _ => r_call parameter_r
  | |- Wp.wp _ (produce _ _) _ _ => r_call produce_r
  end.
Lemma expressions_r lo  e pr acc p t s v c : Sr p t s v c -> VR lo p p t s v -> low lo -> wf_producer pr = false -> chain lo p acc -> wp (expressions_body rec e pr acc) c (post true lo p (fun p' a => chain lo p' a)).
Proof. intros HS HV HL HP HC. r_in. unfold expressions_body. y. Qed.
Lemma commas_r lo  acc p t s v c : Sr p t s v c -> VR lo p p t s v -> low lo -> Forall (within lo p) acc -> wp (commas_body rec acc) c (post true lo p (fun p' a => Forall (within lo p') a)).
Proof. intros HS HV HL HC. r_in. unfold commas_body. y. Qed.
Lemma syntactic_r lo q  p t s v c : Sr p t s v c -> VR lo q p t s v -> low lo ->  wp (syntacticStatement rec) c (post true lo p (fun p' a => within lo p' a /\ q <= eend a)).
Proof. intros HS HV HL. r_in. unfold syntacticStatement. y. Qed.
Ltac r_sub ::= lazymatch goal with
  | |- Wp.wp _ (handleKeyword _) _ _ => r_call handleKeyword_r
  | |- Wp.wp _ (argument _) _ _ => r_call argument_r
  | |- Wp.wp _ (keyedEntry _) _ _ => r_call keyedEntry_r
  | |- Wp.wp _ (selectorEntry _) _ _ => r_call selectorEntry_r
  | |- Wp.wp _ (identifier _) _ _ => eapply identifier_r; [eassumption|eassumption|eassumption|r_in|r_in]
  | |- Wp.wp _ (typeName _) _ _ => eapply typeName_r; [eassumption|eassumption|eassumption|r_in|r_in]
  | |- Wp.wp _ (arrayExpression _) _ _ => r_call arrayExpression_r
  | |- Wp.wp _ (parameterListOf _ PParameter) _ _ => r_call parameterList_r
  | |- Wp.wp _ (parameterList _) _ _ => r_call parameterList2_r
  | |- Wp.wp _ (lambdaParameterList _) _ _ => r_call lambdaParameterList_r
  | |- Wp.wp _ (optParameterType _) _ _ => r_call optParameterType_r
  | |- Wp.wp _ (parameterName _) _ _ => r_call parameterName_r
  | |- Wp.wp _ (parameter _) _ _ => r_call parameter_r
  | |- Wp.wp _ (produce _ _) _ _ => r_call produce_r
  | |- Wp.wp _ (syntacticStatement _) _ _ => r_call syntactic_r
  end.
Lemma statements_r lo q e acc p t s v c : Sr p t s v c -> VR lo q p t s v -> low lo -> chain lo q acc -> wp (statements_body rec e acc) c (post false lo p (fun p' a => chain lo p' a)).
Proof. intros HS HV HL HC. r_in. unfold statements_body. r. r_case; y. Qed.
Lemma parse_r lo q e b p t s v c : Sr p t s v c -> VR lo q p t s v -> low lo ->  wp (parse_body rec e b) c (post false lo p (fun p' a => within lo p' a /\ q <= eend a)).
Proof. intros HS HV HL. r_in. unfold parse_body. r. eapply skipWhite_r; [eassumption|r_in]. r.
  match goal with X : Sr start _ _ _ _ |- _ => pose proof (VR_far HV (p' := start) ltac:(lia)) as HV2 end. r_in. destruct b; y.
  eapply transform_r with (lo := lo); [eassumption|lia|eassumption|r_in]. y. Qed.
Lemma relationship_r lo q  p t s v c : Sr p t s v c -> VR lo q p t s v -> low lo ->  wp (relationship_body rec) c (post true lo p (fun p' a => within lo p' a /\ q <= eend a)).
Proof. intros HS HV HL. r_in. unfold relationship_body. y. Qed.
Lemma relLoop_r lo  e p t s v c : Sr p t s v c -> VR lo p p t s v -> low lo -> within lo p e -> wp (relLoop_body rec e) c (post true lo p (fun p' a => within lo p' a /\ eend e <= eend a)).
Proof. intros HS HV HL HE. r_in. unfold relLoop_body. y. Qed.
Lemma resource_r lo q  p t s v c : Sr p t s v c -> VR lo q p t s v -> low lo ->  wp (resource rec) c (post true lo p (fun p' a => within lo p' a /\ q <= eend a)).
Proof. intros HS HV HL. r_in. unfold resource. y. Qed.
Ltac r_sub ::= lazymatch goal with
  | |- Wp.wp _ (handleKeyword _) _ _ => r_call handleKeyword_r
  | |- Wp.wp _ (argument _) _ _ => r_call argument_r
  | |- Wp.wp _ (keyedEntry _) _ _ => r_call keyedEntry_r
  | |- Wp.wp _ (selectorEntry _) _ _ => r_call selectorEntry_r
  | |- Wp.wp _ (identifier _) _ _ => eapply identifier_r; [eassumption|eassumption|eassumption|r_in|r_in]
  | |- Wp.wp _ (typeName _) _ _ => eapply typeName_r; [eassumption|eassumption|eassumption|r_in|r_in]
  | |- Wp.wp _ (arrayExpression _) _ _ => r_call arrayExpression_r
  | |- Wp.wp _ (parameterListOf _ PParameter) _ _ => r_call parameterList_r
  | |- Wp.wp _ (parameterList _) _ _ => r_call parameterList2_r
  | |- Wp.wp _ (lambdaParameterList _) _ _ => r_call lambdaParameterList_r
  | |- Wp.wp _ (optParameterType _) _ _ => r_call optParameterType_r
  | |- Wp.wp _ (parameterName _) _ _ => r_call parameterName_r
  | |- Wp.wp _ (parameter _) _ _ => r_call parameter_r
  | |- Wp.wp _ (produce _ _) _ _ => r_call produce_r
  | |- Wp.wp _ (syntacticStatement _) _ _ => r_call syntactic_r
  | |- Wp.wp _ (resource _) _ _ => r_call resource_r
  end.
Lemma step_r lo q  p t s v c : Sr p t s v c -> VR lo q p t s v -> low lo ->  wp (step rec) c (post true lo p (fun p' a => within lo p' a /\ q <= eend a)).
Proof. intros HS HV HL. r_in. unfold step. r. rewrite NOWF. y. Qed.
Ltac r_sub ::= lazymatch goal with
  | |- Wp.wp _ (handleKeyword _) _ _ => r_call handleKeyword_r
  | |- Wp.wp _ (argument _) _ _ => r_call argument_r
  | |- Wp.wp _ (keyedEntry _) _ _ => r_call keyedEntry_r
  | |- Wp.wp _ (selectorEntry _) _ _ => r_call selectorEntry_r
  | |- Wp.wp _ (identifier _) _ _ => eapply identifier_r; [eassumption|eassumption|eassumption|r_in|r_in]
  | |- Wp.wp _ (typeName _) _ _ => eapply typeName_r; [eassumption|eassumption|eassumption|r_in|r_in]
  | |- Wp.wp _ (arrayExpression _) _ _ => r_call arrayExpression_r
  | |- Wp.wp _ (parameterListOf _ PParameter) _ _ => r_call parameterList_r
  | |- Wp.wp _ (parameterList _) _ _ => r_call parameterList2_r
  | |- Wp.wp _ (lambdaParameterList _) _ _ => r_call lambdaParameterList_r
  | |- Wp.wp _ (optParameterType _) _ _ => r_call optParameterType_r
  | |- Wp.wp _ (parameterName _) _ _ => r_call parameterName_r
  | |- Wp.wp _ (parameter _) _ _ => r_call parameter_r
  | |- Wp.wp _ (produce _ _) _ _ => r_call produce_r
  | |- Wp.wp _ (syntacticStatement _) _ _ => r_call syntactic_r
  | |- Wp.wp _ (resource _) _ _ => r_call resource_r
  | |- Wp.wp _ (step _) _ _ => r_call step_r
  end.
Lemma assignment_r lo q  p t s v c : Sr p t s v c -> VR lo q p t s v -> low lo ->  wp (assignment_body rec) c (post true lo p (fun p' a => within lo p' a /\ q <= eend a)).
Proof. intros HS HV HL. r_in. unfold assignment_body. y. Qed.
Lemma assignLoop_r lo  e p t s v c : Sr p t s v c -> VR lo p p t s v -> low lo -> within lo p e -> wp (assignLoop_body rec e) c (post true lo p (fun p' a => within lo p' a /\ eend e <= eend a)).
Proof. intros HS HV HL HE. r_in. unfold assignLoop_body. y. Qed.
Lemma className_r lo q  p t s v c : Sr p t s v c -> VR lo q p t s v -> low lo ->  wp (className rec) c (post true lo p (fun p' a => True)).
Proof. intros HS HV HL. r_in. unfold className. y. Qed.
Ltac r_sub ::= lazymatch goal with
  | |- Wp.wp _ (handleKeyword _) _ _ => r_call handleKeyword_r
  | |- Wp.wp _ (argument _) _ _ => r_call argument_r
  | |- Wp.wp _ (keyedEntry _) _ _ => r_call keyedEntry_r
  | |- Wp.wp _ (selectorEntry _) _ _ => r_call selectorEntry_r
  | |- Wp.wp _ (identifier _) _ _ => eapply identifier_r; [eassumption|eassumption|eassumption|r_in|r_in]
  | |- Wp.wp _ (typeName _) _ _ => eapply typeName_r; [eassumption|eassumption|eassumption|r_in|r_in]
  | |- Wp.wp _ (arrayExpression _) _ _ => r_call arrayExpression_r
  | |- Wp.wp _ (parameterListOf _ PParameter) _ _ => r_call parameterList_r
  | |- Wp.wp _ (parameterList _) _ _ => r_call parameterList2_r
  | |- Wp.wp _ (lambdaParameterList _) _ _ => r_call lambdaParameterList_r
  | |- Wp.wp _ (optParameterType _) _ _ => r_call optParameterType_r
  | |- Wp.wp _ (parameterName _) _ _ => r_call parameterName_r
  | |- Wp.wp _ (parameter _) _ _ => r_call parameter_r
  | |- Wp.wp _ (produce _ _) _ _ => r_call produce_r
  | |- Wp.wp _ (syntacticStatement _) _ _ => r_call syntactic_r
  | |- Wp.wp _ (resource _) _ _ => r_call resource_r
  | |- Wp.wp _ (step _) _ _ => r_call step_r
  | |- Wp.wp _ (className _) _ _ => r_call className_r
  end.
Lemma braces_r lo q  p t s v c : Sr p t s v c -> VR lo q p t s v -> low lo ->  wp (braces rec) c (post true lo p (fun p' a => within lo p' a)).
Proof. intros HS HV HL. r_in. unfold braces. y. Qed.
Ltac r_sub ::= lazymatch goal with
  | |- Wp.wp _ (handleKeyword _) _ _ => r_call handleKeyword_r
  | |- Wp.wp _ (argument _) _ _ => r_call argument_r
  | |- Wp.wp _ (keyedEntry _) _ _ => r_call keyedEntry_r
  | |- Wp.wp _ (selectorEntry _) _ _ => r_call selectorEntry_r
  | |- Wp.wp _ (identifier _) _ _ => eapply identifier_r; [eassumption|eassumption|eassumption|r_in|r_in]
  | |- Wp.wp _ (typeName _) _ _ => eapply typeName_r; [eassumption|eassumption|eassumption|r_in|r_in]
  | |- Wp.wp _ (arrayExpression _) _ _ => r_call arrayExpression_r
  | |- Wp.wp _ (parameterListOf _ PParameter) _ _ => r_call parameterList_r
  | |- Wp.wp _ (parameterList _) _ _ => r_call parameterList2_r
  | |- Wp.wp _ (lambdaParameterList _) _ _ => r_call lambdaParameterList_r
  | |- Wp.wp _ (optParameterType _) _ _ => r_call optParameterType_r
  | |- Wp.wp _ (parameterName _) _ _ => r_call parameterName_r
  | |- Wp.wp _ (parameter _) _ _ => r_call parameter_r
  | |- Wp.wp _ (produce _ _) _ _ => r_call produce_r
  | |- Wp.wp _ (syntacticStatement _) _ _ => r_call syntactic_r
  | |- Wp.wp _ (resource _) _ _ => r_call resource_r
  | |- Wp.wp _ (step _) _ _ => r_call step_r
  | |- Wp.wp _ (className _) _ _ => r_call className_r
  | |- Wp.wp _ (braces _) _ _ => r_call braces_r
  end.
Ltac r_sub ::= lazymatch goal with
  | |- Wp.wp _ (handleKeyword _) _ _ => r_call handleKeyword_r
  | |- Wp.wp _ (argument _) _ _ => r_call argument_r
  | |- Wp.wp _ (keyedEntry _) _ _ => r_call keyedEntry_r
  | |- Wp.wp _ (selectorEntry _) _ _ => r_call selectorEntry_r
  | |- Wp.wp _ (identifier _) _ _ => eapply identifier_r; [eassumption|eassumption|eassumption|r_in|r_in]
  | |- Wp.wp _ (typeName _) _ _ => eapply typeName_r; [eassumption|eassumption|eassumption|r_in|r_in]
  | |- Wp.wp _ (arrayExpression _) _ _ => r_call arrayExpression_r
  | |- Wp.wp _ (parameterListOf _ PParameter) _ _ => r_call parameterList_r
  | |- Wp.wp _ (parameterList _) _ _ => r_call parameterList2_r
  | |- Wp.wp _ (lambdaParameterList _) _ _ => r_call lambdaParameterList_r
  | |- Wp.wp _ (optParameterType _) _ _ => r_call optParameterType_r
  | |- Wp.wp _ (parameterName _) _ _ => r_call parameterName_r
  | |- Wp.wp _ (parameter _) _ _ => r_call parameter_r
  | |- Wp.wp _ (produce _ _) _ _ => r_call produce_r
  | |- Wp.wp _ (syntacticStatement _) _ _ => r_call syntactic_r
  | |- Wp.wp _ (resource _) _ _ => r_call resource_r
  | |- Wp.wp _ (step _) _ _ => r_call step_r
  | |- Wp.wp _ (className _) _ _ => r_call className_r
  | |- Wp.wp _ (braces _) _ _ => r_call braces_r
  | |- Wp.wp _ (addDefinition _) _ _ => match goal with HL : low ?lo, HS : RngBase.Sr _ _ ?p _ _ _ ?c |- Wp.wp _ _ ?c _ => eapply r_add with (lo := lo) (hi := p); [exact HS|try solve [s1]|lia|lia|r_in] end
  end.
Lemma capabilityMapping_r lo  e k p t s v c : Sr p t s v c -> VR lo p p t s v -> low lo -> within lo p e -> wp (capabilityMapping rec e k) c (post true lo p (fun p' a => within lo p' a /\ p <= eend a)).
Proof. intros HS HV HL HE. r_in. unfold capabilityMapping. r.
  r_mid true (fun lo p' a => within lo p' a); [destruct e; y|y]. Qed.
Ltac r_sub ::= lazymatch goal with
  | |- Wp.wp _ (handleKeyword _) _ _ => r_call handleKeyword_r
  | |- Wp.wp _ (argument _) _ _ => r_call argument_r
  | |- Wp.wp _ (keyedEntry _) _ _ => r_call keyedEntry_r
  | |- Wp.wp _ (selectorEntry _) _ _ => r_call selectorEntry_r
  | |- Wp.wp _ (identifier _) _ _ => eapply identifier_r; [eassumption|eassumption|eassumption|r_in|r_in]
  | |- Wp.wp _ (typeName _) _ _ => eapply typeName_r; [eassumption|eassumption|eassumption|r_in|r_in]
  | |- Wp.wp _ (arrayExpression _) _ _ => r_call arrayExpression_r
  | |- Wp.wp _ (parameterListOf _ PParameter) _ _ => r_call parameterList_r
  | |- Wp.wp _ (parameterList _) _ _ => r_call parameterList2_r
  | |- Wp.wp _ (lambdaParameterList _) _ _ => r_call lambdaParameterList_r
  | |- Wp.wp _ (optParameterType _) _ _ => r_call optParameterType_r
  | |- Wp.wp _ (parameterName _) _ _ => r_call parameterName_r
  | |- Wp.wp _ (parameter _) _ _ => r_call parameter_r
  | |- Wp.wp _ (produce _ _) _ _ => r_call produce_r
  | |- Wp.wp _ (syntacticStatement _) _ _ => r_call syntactic_r
  | |- Wp.wp _ (resource _) _ _ => r_call resource_r
  | |- Wp.wp _ (step _) _ _ => r_call step_r
  | |- Wp.wp _ (className _) _ _ => r_call className_r
  | |- Wp.wp _ (braces _) _ _ => r_call braces_r
  | |- Wp.wp _ (addDefinition _) _ _ => match goal with HL : low ?lo, HS : RngBase.Sr _ _ ?p _ _ _ ?c |- Wp.wp _ _ ?c _ => eapply r_add with (lo := lo) (hi := p); [exact HS|try solve [s1]|lia|lia|r_in] end
  | |- Wp.wp _ (capabilityMapping _ _ _) _ _ => r_call capabilityMapping_r
  end.
Lemma expression_r lo q  p t s v c : Sr p t s v c -> VR lo q p t s v -> low lo ->  wp (expression_body rec) c (post true lo p (fun p' a => within lo p' a /\ q <= eend a)).
Proof. intros HS HV HL. r_in. unfold expression_body. r. match goal with |- Wp.wp _ (match ?cc with _ => _ end) _ _ => destruct cc end; try solve [y]; (r; match goal with |- Wp.wp _ (match ?ee with _ => _ end) _ _ => destruct ee end; solve [y]). Qed.
Lemma selectors_r lo q e p t s v c : Sr p t s v c -> VR lo q p t s v -> low lo -> within lo p e -> wp (selectorsExpression rec e) c (post true lo p (fun p' a => within lo p' a /\ eend e <= eend a)).
Proof. intros HS HV HL HE. r_in. unfold selectorsExpression. y. Qed.
Ltac r_sub ::= lazymatch goal with
  | |- Wp.wp _ (handleKeyword _) _ _ => r_call handleKeyword_r
  | |- Wp.wp _ (argument _) _ _ => r_call argument_r
  | |- Wp.wp _ (keyedEntry _) _ _ => r_call keyedEntry_r
  | |- Wp.wp _ (selectorEntry _) _ _ => r_call selectorEntry_r
  | |- Wp.wp _ (identifier _) _ _ => eapply identifier_r; [eassumption|eassumption|eassumption|r_in|r_in]
  | |- Wp.wp _ (typeName _) _ _ => eapply typeName_r; [eassumption|eassumption|eassumption|r_in|r_in]
  | |- Wp.wp _ (arrayExpression _) _ _ => r_call arrayExpression_r
  | |- Wp.wp _ (parameterListOf _ PParameter) _ _ => r_call parameterList_r
  | |- Wp.wp _ (parameterList _) _ _ => r_call parameterList2_r
  | |- Wp.wp _ (lambdaParameterList _) _ _ => r_call lambdaParameterList_r
  | |- Wp.wp _ (optParameterType _) _ _ => r_call optParameterType_r
  | |- Wp.wp _ (parameterName _) _ _ => r_call parameterName_r
  | |- Wp.wp _ (parameter _) _ _ => r_call parameter_r
  | |- Wp.wp _ (produce _ _) _ _ => r_call produce_r
  | |- Wp.wp _ (syntacticStatement _) _ _ => r_call syntactic_r
  | |- Wp.wp _ (resource _) _ _ => r_call resource_r
  | |- Wp.wp _ (step _) _ _ => r_call step_r
  | |- Wp.wp _ (className _) _ _ => r_call className_r
  | |- Wp.wp _ (braces _) _ _ => r_call braces_r
  | |- Wp.wp _ (addDefinition _) _ _ => match goal with HL : low ?lo, HS : RngBase.Sr _ _ ?p _ _ _ ?c |- Wp.wp _ _ ?c _ => eapply r_add with (lo := lo) (hi := p); [exact HS|try solve [s1]|lia|lia|r_in] end
  | |- Wp.wp _ (capabilityMapping _ _ _) _ _ => r_call capabilityMapping_r
  | |- Wp.wp _ (selectorsExpression _ _) _ _ => r_call selectors_r
  end.
Lemma selectLoop_r lo  e p t s v c : Sr p t s v c -> VR lo p p t s v -> low lo -> within lo p e -> wp (selectLoop_body rec e) c (post true lo p (fun p' a => within lo p' a /\ eend e <= eend a)).
Proof. intros HS HV HL HE. r_in. unfold selectLoop_body. y. Qed.
Lemma level_operand_r lo q l p t s v c : Sr p t s v c -> VR lo q p t s v -> low lo ->  wp (level_operand rec l) c (post true lo p (fun p' a => within lo p' a /\ q <= eend a)).
Proof. intros HS HV HL. r_in. unfold level_operand. y. Qed.
Ltac r_sub ::= lazymatch goal with
  | |- Wp.wp _ (handleKeyword _) _ _ => r_call handleKeyword_r
  | |- Wp.wp _ (argument _) _ _ => r_call argument_r
  | |- Wp.wp _ (keyedEntry _) _ _ => r_call keyedEntry_r
  | |- Wp.wp _ (selectorEntry _) _ _ => r_call selectorEntry_r
  | |- Wp.wp _ (identifier _) _ _ => eapply identifier_r; [eassumption|eassumption|eassumption|r_in|r_in]
  | |- Wp.wp _ (typeName _) _ _ => eapply typeName_r; [eassumption|eassumption|eassumption|r_in|r_in]
  | |- Wp.wp _ (arrayExpression _) _ _ => r_call arrayExpression_r
  | |- Wp.wp _ (parameterListOf _ PParameter) _ _ => r_call parameterList_r
  | |- Wp.wp _ (parameterList _) _ _ => r_call parameterList2_r
  | |- Wp.wp _ (lambdaParameterList _) _ _ => r_call lambdaParameterList_r
  | |- Wp.wp _ (optParameterType _) _ _ => r_call optParameterType_r
  | |- Wp.wp _ (parameterName _) _ _ => r_call parameterName_r
  | |- Wp.wp _ (parameter _) _ _ => r_call parameter_r
  | |- Wp.wp _ (produce _ _) _ _ => r_call produce_r
  | |- Wp.wp _ (syntacticStatement _) _ _ => r_call syntactic_r
  | |- Wp.wp _ (resource _) _ _ => r_call resource_r
  | |- Wp.wp _ (step _) _ _ => r_call step_r
  | |- Wp.wp _ (className _) _ _ => r_call className_r
  | |- Wp.wp _ (braces _) _ _ => r_call braces_r
  | |- Wp.wp _ (addDefinition _) _ _ => match goal with HL : low ?lo, HS : RngBase.Sr _ _ ?p _ _ _ ?c |- Wp.wp _ _ ?c _ => eapply r_add with (lo := lo) (hi := p); [exact HS|try solve [s1]|lia|lia|r_in] end
  | |- Wp.wp _ (capabilityMapping _ _ _) _ _ => r_call capabilityMapping_r
  | |- Wp.wp _ (selectorsExpression _ _) _ _ => r_call selectors_r
  | |- Wp.wp _ (level_operand _ _) _ _ => r_call level_operand_r
  end.
Lemma level_r lo q l p t s v c : Sr p t s v c -> VR lo q p t s v -> low lo ->  wp (level_body rec l) c (post true lo p (fun p' a => within lo p' a /\ q <= eend a)).
Proof. intros HS HV HL. r_in. unfold level_body. y. Qed.
Lemma levelLoop_r lo  l e p t s v c : Sr p t s v c -> VR lo p p t s v -> low lo -> within lo p e -> wp (levelLoop_body rec l e) c (post true lo p (fun p' a => within lo p' a /\ eend e <= eend a)).
Proof. intros HS HV HL HE. r_in. unfold levelLoop_body, level_op_text. r. r_case; [|y]. r. r_mid true (fun (_ _ : Z) (_ : str) => True); y. Qed.
Lemma unary_node_r lo q k st m p t s v c : Sr p t s v c -> VR lo q p t s v -> low lo -> lo <= st <= p -> (forall lo q p t s v c, Sr p t s v c -> VR lo q p t s v -> low lo -> wp m c (post true lo p (fun p' a => within lo p' a /\ q <= eend a))) -> wp (unary_node rec k st m) c (post true lo p (fun p' a => within lo p' a /\ q <= eend a)).
Proof. intros HS HV HL HST HM. r_in. unfold unary_node. r. r_call HM. y. Qed.
Ltac r_sub ::= lazymatch goal with
  | |- Wp.wp _ (handleKeyword _) _ _ => r_call handleKeyword_r
  | |- Wp.wp _ (argument _) _ _ => r_call argument_r
  | |- Wp.wp _ (keyedEntry _) _ _ => r_call keyedEntry_r
  | |- Wp.wp _ (selectorEntry _) _ _ => r_call selectorEntry_r
  | |- Wp.wp _ (identifier _) _ _ => eapply identifier_r; [eassumption|eassumption|eassumption|r_in|r_in]
  | |- Wp.wp _ (typeName _) _ _ => eapply typeName_r; [eassumption|eassumption|eassumption|r_in|r_in]
  | |- Wp.wp _ (arrayExpression _) _ _ => r_call arrayExpression_r
  | |- Wp.wp _ (parameterListOf _ PParameter) _ _ => r_call parameterList_r
  | |- Wp.wp _ (parameterList _) _ _ => r_call parameterList2_r
  | |- Wp.wp _ (lambdaParameterList _) _ _ => r_call lambdaParameterList_r
  | |- Wp.wp _ (optParameterType _) _ _ => r_call optParameterType_r
  | |- Wp.wp _ (parameterName _) _ _ => r_call parameterName_r
  | |- Wp.wp _ (parameter _) _ _ => r_call parameter_r
  | |- Wp.wp _ (produce _ _) _ _ => r_call produce_r
  | |- Wp.wp _ (syntacticStatement _) _ _ => r_call syntactic_r
  | |- Wp.wp _ (resource _) _ _ => r_call resource_r
  | |- Wp.wp _ (step _) _ _ => r_call step_r
  | |- Wp.wp _ (className _) _ _ => r_call className_r
  | |- Wp.wp _ (braces _) _ _ => r_call braces_r
  | |- Wp.wp _ (addDefinition _) _ _ => match goal with HL : low ?lo, HS : RngBase.Sr _ _ ?p _ _ _ ?c |- Wp.wp _ _ ?c _ => eapply r_add with (lo := lo) (hi := p); [exact HS|try solve [s1]|lia|lia|r_in] end
  | |- Wp.wp _ (capabilityMapping _ _ _) _ _ => r_call capabilityMapping_r
  | |- Wp.wp _ (selectorsExpression _ _) _ _ => r_call selectors_r
  | |- Wp.wp _ (level_operand _ _) _ _ => r_call level_operand_r
  | |- Wp.wp _ (unary_node _ _ _ _) _ _ => r_call unary_node_r
  end.
Lemma signed_r lo q st p t s v c : Sr p t s v c -> VR lo q p t s v -> low lo -> lo <= st <= p -> wp (signed_number rec st) c (post true lo p (fun p' a => within lo p' a /\ q <= eend a)).
Proof. intros HS HV HL HST. r_in. unfold signed_number. r. 
  match goal with X : within lo ?hi a |- _ => pose proof (@set_pos_within lo hi (mkpos st (hi - st)) a X ltac:(cbn; lia) ltac:(cbn; lia) ltac:(cbn; lia)) as [HP1 HP2] end.
  cbn [p_off p_len] in HP2. r_fin. Qed.
Ltac r_sub ::= lazymatch goal with
  | |- Wp.wp _ (handleKeyword _) _ _ => r_call handleKeyword_r
  | |- Wp.wp _ (argument _) _ _ => r_call argument_r
  | |- Wp.wp _ (keyedEntry _) _ _ => r_call keyedEntry_r
  | |- Wp.wp _ (selectorEntry _) _ _ => r_call selectorEntry_r
  | |- Wp.wp _ (identifier _) _ _ => eapply identifier_r; [eassumption|eassumption|eassumption|r_in|r_in]
  | |- Wp.wp _ (typeName _) _ _ => eapply typeName_r; [eassumption|eassumption|eassumption|r_in|r_in]
  | |- Wp.wp _ (arrayExpression _) _ _ => r_call arrayExpression_r
  | |- Wp.wp _ (parameterListOf _ PParameter) _ _ => r_call parameterList_r
  | |- Wp.wp _ (parameterList _) _ _ => r_call parameterList2_r
  | |- Wp.wp _ (lambdaParameterList _) _ _ => r_call lambdaParameterList_r
  | |- Wp.wp _ (optParameterType _) _ _ => r_call optParameterType_r
  | |- Wp.wp _ (parameterName _) _ _ => r_call parameterName_r
  | |- Wp.wp _ (parameter _) _ _ => r_call parameter_r
  | |- Wp.wp _ (produce _ _) _ _ => r_call produce_r
  | |- Wp.wp _ (syntacticStatement _) _ _ => r_call syntactic_r
  | |- Wp.wp _ (resource _) _ _ => r_call resource_r
  | |- Wp.wp _ (step _) _ _ => r_call step_r
  | |- Wp.wp _ (className _) _ _ => r_call className_r
  | |- Wp.wp _ (braces _) _ _ => r_call braces_r
  | |- Wp.wp _ (addDefinition _) _ _ => match goal with HL : low ?lo, HS : RngBase.Sr _ _ ?p _ _ _ ?c |- Wp.wp _ _ ?c _ => eapply r_add with (lo := lo) (hi := p); [exact HS|try solve [s1]|lia|lia|r_in] end
  | |- Wp.wp _ (capabilityMapping _ _ _) _ _ => r_call capabilityMapping_r
  | |- Wp.wp _ (selectorsExpression _ _) _ _ => r_call selectors_r
  | |- Wp.wp _ (level_operand _ _) _ _ => r_call level_operand_r
  | |- Wp.wp _ (unary_node _ _ _ _) _ _ => r_call unary_node_r
  | |- Wp.wp _ (signed_number _ _) _ _ => r_call signed_r
  end.
Lemma unary_r lo q p t s v c : Sr p t s v c -> VR lo q p t s v -> low lo -> wp (unary_body rec) c (post true lo p (fun p' a => within lo p' a /\ q <= eend a)).
Proof.
  intros HS HV HL. r_in. unfold unary_body. r.
  assert (PR : forall lo q p t s v c, Sr p t s v c -> VR lo q p t s v -> low lo -> wp (rec FPrimary) c (post true lo p (fun p' a => within lo p' a /\ q <= eend a))) by (intros; r_in; y).
  assert (UN : forall lo q p t s v c, Sr p t s v c -> VR lo q p t s v -> low lo -> wp (rec FUnary) c (post true lo p (fun p' a => within lo p' a /\ q <= eend a))) by (intros; r_in; y).
  destruct t; try solve [y].
  - (* - *) r. r_case.
    + r.
      match goal with |- Wp.wp _ (if tok_eqb ?tt TInteger then _ else _) _ _ => destruct (tok_eqb tt TInteger) eqn:E; [apply tok_eqb_eq in E; subst tt|] end.
      * destruct v'; try exact Logic.I. r1. match goal with X : RngBase.Sr _ _ ?pp ?tt ?ss (VInt (- ?z)) _ |- _ => assert (HV2 : VR lo pp pp tt ss (VInt (- z))) by (apply VR_int; [lia|lia|discriminate]) end. r_in. y.
      * destruct v'; try exact Logic.I. r1. match goal with X : RngBase.Sr _ _ ?pp ?tt ?ss (VFloat (f64_neg ?z)) _ |- _ => assert (HV2 : VR lo pp pp tt ss (VFloat (f64_neg z))) by (apply VR_other; [lia|lia|reflexivity]) end. r_in. y.
    + y.
Qed.
Lemma collectQuery_r lo q  p t s v c : Sr p t s v c -> VR lo q p t s v -> low lo ->  wp (collectQuery rec) c (post true lo p (fun p' a => within lo p' a)).
Proof. intros HS HV HL. r_in. unfold collectQuery. r. cbv zeta. destruct (tok_eqb t TLcollect); r; r_mid true (fun lo p' a => within lo p' a); y. Qed.
Ltac r_sub ::= lazymatch goal with
  | |- Wp.wp _ (handleKeyword _) _ _ => r_call handleKeyword_r
  | |- Wp.wp _ (argument _) _ _ => r_call argument_r
  | |- Wp.wp _ (keyedEntry _) _ _ => r_call keyedEntry_r
  | |- Wp.wp _ (selectorEntry _) _ _ => r_call selectorEntry_r
  | |- Wp.wp _ (identifier _) _ _ => eapply identifier_r; [eassumption|eassumption|eassumption|r_in|r_in]
  | |- Wp.wp _ (typeName _) _ _ => eapply typeName_r; [eassumption|eassumption|eassumption|r_in|r_in]
  | |- Wp.wp _ (arrayExpression _) _ _ => r_call arrayExpression_r
  | |- Wp.wp _ (parameterListOf _ PParameter) _ _ => r_call parameterList_r
  | |- Wp.wp _ (parameterList _) _ _ => r_call parameterList2_r
  | |- Wp.wp _ (lambdaParameterList _) _ _ => r_call lambdaParameterList_r
  | |- Wp.wp _ (optParameterType _) _ _ => r_call optParameterType_r
  | |- Wp.wp _ (parameterName _) _ _ => r_call parameterName_r
  | |- Wp.wp _ (parameter _) _ _ => r_call parameter_r
  | |- Wp.wp _ (produce _ _) _ _ => r_call produce_r
  | |- Wp.wp _ (syntacticStatement _) _ _ => r_call syntactic_r
  | |- Wp.wp _ (resource _) _ _ => r_call resource_r
  | |- Wp.wp _ (step _) _ _ => r_call step_r
  | |- Wp.wp _ (className _) _ _ => r_call className_r
  | |- Wp.wp _ (braces _) _ _ => r_call braces_r
  | |- Wp.wp _ (addDefinition _) _ _ => match goal with HL : low ?lo, HS : RngBase.Sr _ _ ?p _ _ _ ?c |- Wp.wp _ _ ?c _ => eapply r_add with (lo := lo) (hi := p); [exact HS|try solve [s1]|lia|lia|r_in] end
  | |- Wp.wp _ (capabilityMapping _ _ _) _ _ => r_call capabilityMapping_r
  | |- Wp.wp _ (selectorsExpression _ _) _ _ => r_call selectors_r
  | |- Wp.wp _ (level_operand _ _) _ _ => r_call level_operand_r
  | |- Wp.wp _ (unary_node _ _ _ _) _ _ => r_call unary_node_r
  | |- Wp.wp _ (signed_number _ _) _ _ => r_call signed_r
  | |- Wp.wp _ (collectQuery _) _ _ => r_call collectQuery_r
  end.
Lemma collect_r lo  e p t s v c : Sr p t s v c -> VR lo p p t s v -> low lo -> within lo p e -> wp (collectExpression rec e) c (post true lo p (fun p' a => within lo p' a /\ eend e <= eend a)).
Proof. intros HS HV HL HE. r_in. unfold collectExpression. r. r_mid true (fun lo p' a => Forall (within lo p') a); y. Qed.
Ltac r_sub ::= lazymatch goal with
  | |- Wp.wp _ (handleKeyword _) _ _ => r_call handleKeyword_r
  | |- Wp.wp _ (argument _) _ _ => r_call argument_r
  | |- Wp.wp _ (keyedEntry _) _ _ => r_call keyedEntry_r
  | |- Wp.wp _ (selectorEntry _) _ _ => r_call selectorEntry_r
  | |- Wp.wp _ (identifier _) _ _ => eapply identifier_r; [eassumption|eassumption|eassumption|r_in|r_in]
  | |- Wp.wp _ (typeName _) _ _ => eapply typeName_r; [eassumption|eassumption|eassumption|r_in|r_in]
  | |- Wp.wp _ (arrayExpression _) _ _ => r_call arrayExpression_r
  | |- Wp.wp _ (parameterListOf _ PParameter) _ _ => r_call parameterList_r
  | |- Wp.wp _ (parameterList _) _ _ => r_call parameterList2_r
  | |- Wp.wp _ (lambdaParameterList _) _ _ => r_call lambdaParameterList_r
  | |- Wp.wp _ (optParameterType _) _ _ => r_call optParameterType_r
  | |- Wp.wp _ (parameterName _) _ _ => r_call parameterName_r
  | |- Wp.wp _ (parameter _) _ _ => r_call parameter_r
  | |- Wp.wp _ (produce _ _) _ _ => r_call produce_r
  | |- Wp.wp _ (syntacticStatement _) _ _ => r_call syntactic_r
  | |- Wp.wp _ (resource _) _ _ => r_call resource_r
  | |- Wp.wp _ (step _) _ _ => r_call step_r
  | |- Wp.wp _ (className _) _ _ => r_call className_r
  | |- Wp.wp _ (braces _) _ _ => r_call braces_r
  | |- Wp.wp _ (addDefinition _) _ _ => match goal with HL : low ?lo, HS : RngBase.Sr _ _ ?p _ _ _ ?c |- Wp.wp _ _ ?c _ => eapply r_add with (lo := lo) (hi := p); [exact HS|try solve [s1]|lia|lia|r_in] end
  | |- Wp.wp _ (capabilityMapping _ _ _) _ _ => r_call capabilityMapping_r
  | |- Wp.wp _ (selectorsExpression _ _) _ _ => r_call selectors_r
  | |- Wp.wp _ (level_operand _ _) _ _ => r_call level_operand_r
  | |- Wp.wp _ (unary_node _ _ _ _) _ _ => r_call unary_node_r
  | |- Wp.wp _ (signed_number _ _) _ _ => r_call signed_r
  | |- Wp.wp _ (collectQuery _) _ _ => r_call collectQuery_r
  | |- Wp.wp _ (collectExpression _ _) _ _ => r_call collect_r
  end.
Lemma optReturnType_r lo   p t s v c : Sr p t s v c -> VR lo p p t s v -> low lo ->  wp (optReturnType rec) c (post true lo p (fun p' a => owithin lo p' a)).
Proof. intros HS HV HL. r_in. unfold optReturnType. y. Qed.
Ltac r_sub ::= lazymatch goal with
  | |- Wp.wp _ (handleKeyword _) _ _ => r_call handleKeyword_r
  | |- Wp.wp _ (argument _) _ _ => r_call argument_r
  | |- Wp.wp _ (keyedEntry _) _ _ => r_call keyedEntry_r
  | |- Wp.wp _ (selectorEntry _) _ _ => r_call selectorEntry_r
  | |- Wp.wp _ (identifier _) _ _ => eapply identifier_r; [eassumption|eassumption|eassumption|r_in|r_in]
  | |- Wp.wp _ (typeName _) _ _ => eapply typeName_r; [eassumption|eassumption|eassumption|r_in|r_in]
  | |- Wp.wp _ (arrayExpression _) _ _ => r_call arrayExpression_r
  | |- Wp.wp _ (parameterListOf _ PParameter) _ _ => r_call parameterList_r
  | |- Wp.wp _ (parameterList _) _ _ => r_call parameterList2_r
  | |- Wp.wp _ (lambdaParameterList _) _ _ => r_call lambdaParameterList_r
  | |- Wp.wp _ (optParameterType _) _ _ => r_call optParameterType_r
  | |- Wp.wp _ (parameterName _) _ _ => r_call parameterName_r
  | |- Wp.wp _ (parameter _) _ _ => r_call parameter_r
  | |- Wp.wp _ (produce _ _) _ _ => r_call produce_r
  | |- Wp.wp _ (syntacticStatement _) _ _ => r_call syntactic_r
  | |- Wp.wp _ (resource _) _ _ => r_call resource_r
  | |- Wp.wp _ (step _) _ _ => r_call step_r
  | |- Wp.wp _ (className _) _ _ => r_call className_r
  | |- Wp.wp _ (braces _) _ _ => r_call braces_r
  | |- Wp.wp _ (addDefinition _) _ _ => match goal with HL : low ?lo, HS : RngBase.Sr _ _ ?p _ _ _ ?c |- Wp.wp _ _ ?c _ => eapply r_add with (lo := lo) (hi := p); [exact HS|try solve [s1]|lia|lia|r_in] end
  | |- Wp.wp _ (capabilityMapping _ _ _) _ _ => r_call capabilityMapping_r
  | |- Wp.wp _ (selectorsExpression _ _) _ _ => r_call selectors_r
  | |- Wp.wp _ (level_operand _ _) _ _ => r_call level_operand_r
  | |- Wp.wp _ (unary_node _ _ _ _) _ _ => r_call unary_node_r
  | |- Wp.wp _ (signed_number _ _) _ _ => r_call signed_r
  | |- Wp.wp _ (collectQuery _) _ _ => r_call collectQuery_r
  | |- Wp.wp _ (collectExpression _ _) _ _ => r_call collect_r
  | |- Wp.wp _ (optReturnType _) _ _ => r_call optReturnType_r
  end.
Lemma lambda_r lo q  p t s v c : Sr p t s v c -> VR lo q p t s v -> low lo ->  wp (lambda rec) c (post true lo p (fun p' a => within lo p' a /\ q <= eend a)).
Proof. intros HS HV HL. r_in. unfold lambda. y. Qed.
Ltac r_sub ::= lazymatch goal with
  | |- Wp.wp _ (handleKeyword _) _ _ => r_call handleKeyword_r
  | |- Wp.wp _ (argument _) _ _ => r_call argument_r
  | |- Wp.wp _ (keyedEntry _) _ _ => r_call keyedEntry_r
  | |- Wp.wp _ (selectorEntry _) _ _ => r_call selectorEntry_r
  | |- Wp.wp _ (identifier _) _ _ => eapply identifier_r; [eassumption|eassumption|eassumption|r_in|r_in]
  | |- Wp.wp _ (typeName _) _ _ => eapply typeName_r; [eassumption|eassumption|eassumption|r_in|r_in]
  | |- Wp.wp _ (arrayExpression _) _ _ => r_call arrayExpression_r
  | |- Wp.wp _ (parameterListOf _ PParameter) _ _ => r_call parameterList_r
  | |- Wp.wp _ (parameterList _) _ _ => r_call parameterList2_r
  | |- Wp.wp _ (lambdaParameterList _) _ _ => r_call lambdaParameterList_r
  | |- Wp.wp _ (optParameterType _) _ _ => r_call optParameterType_r
  | |- Wp.wp _ (parameterName _) _ _ => r_call parameterName_r
  | |- Wp.wp _ (parameter _) _ _ => r_call parameter_r
  | |- Wp.wp _ (produce _ _) _ _ => r_call produce_r
  | |- Wp.wp _ (syntacticStatement _) _ _ => r_call syntactic_r
  | |- Wp.wp _ (resource _) _ _ => r_call resource_r
  | |- Wp.wp _ (step _) _ _ => r_call step_r
  | |- Wp.wp _ (className _) _ _ => r_call className_r
  | |- Wp.wp _ (braces _) _ _ => r_call braces_r
  | |- Wp.wp _ (addDefinition _) _ _ => match goal with HL : low ?lo, HS : RngBase.Sr _ _ ?p _ _ _ ?c |- Wp.wp _ _ ?c _ => eapply r_add with (lo := lo) (hi := p); [exact HS|try solve [s1]|lia|lia|r_in] end
  | |- Wp.wp _ (capabilityMapping _ _ _) _ _ => r_call capabilityMapping_r
  | |- Wp.wp _ (selectorsExpression _ _) _ _ => r_call selectors_r
  | |- Wp.wp _ (level_operand _ _) _ _ => r_call level_operand_r
  | |- Wp.wp _ (unary_node _ _ _ _) _ _ => r_call unary_node_r
  | |- Wp.wp _ (signed_number _ _) _ _ => r_call signed_r
  | |- Wp.wp _ (collectQuery _) _ _ => r_call collectQuery_r
  | |- Wp.wp _ (collectExpression _ _) _ _ => r_call collect_r
  | |- Wp.wp _ (optReturnType _) _ _ => r_call optReturnType_r
  | |- Wp.wp _ (lambda _) _ _ => r_call lambda_r
  end.
Lemma call_r lo p t s v c e : Sr p t s v c -> VR lo p p t s v -> low lo -> within lo p e -> wp (call_body rec e) c (post true lo p (fun p' a => within lo p' a /\ eend e <= eend a)).
Proof.
  intros HS HV HL HE. r_in. unfold call_body. cbv zeta. r.
  r_mid true (fun lo p' a => Forall (within lo p') (fst a) /\ eend e <= snd a <= p').
  { r_case; y; cbn [fst snd]; s1. }
  r. destruct a as [args en]. cbn [fst snd] in *. r.
  r_mid true (fun lo p' a => owithin lo p' (fst a) /\ eend e <= snd a <= p').
  { r_case; y; cbn [fst snd]; s1. }
  destruct a as [block en2]. cbn [fst snd] in *. cbv beta iota.
  assert (HW : forall f, Forall (within lo p1) (children e) -> within lo p1 (ECallNamed (mkpos (byteOffset e) (en2 - byteOffset e)) f e args block)).
  { intros f _. s_within. }
  assert (K : wp (ret (ECallNamed (mkpos (byteOffset e) (en2 - byteOffset e)) true e args block)) c1 (post true lo p (fun p' a => within lo p' a /\ eend e <= eend a))) by y.
  destruct e; try exact K. destruct k; try exact K. y.
  match goal with |- context [convertLhsToCall ?ee ?aa ?ll ?pp] => pose proof (@lhs_end ee aa ll pp) as HE2 end. cbv iota beta in HE2. cbn [p_off p_len] in HE2. pose proof (within_span HE).
  split; [|zn]. eapply lhs_within; [apply Nat.lt_succ_diag_r| | | | | |]; cbn [p_off p_len]; try solve [s1]; zn.
Qed.
Lemma primary_r lo q  p t s v c : Sr p t s v c -> VR lo q p t s v -> low lo ->  wp (primary_body rec) c (post true lo p (fun p' a => within lo p' a /\ q <= eend a)).
Proof. intros HS HV HL. r_in. unfold primary_body. y. Qed.
Lemma primaryLoop_r lo p t s v c e : Sr p t s v c -> VR lo p p t s v -> low lo -> within lo p e -> wp (primaryLoop_body rec e) c (post true lo p (fun p' a => within lo p' a /\ eend e <= eend a)).
Proof.
  intros HS HV HL HE. r_in. unfold primaryLoop_body. r.
  assert (D : wp (match e with EBin pp KNamedAccess _ _ _ => ret (convertLhsToCall e [] None pp) | _ => ret e end) c (post true lo p (fun p' a => within lo p' a /\ eend e <= eend a))).
  { destruct e; try solve [y]. destruct k; try solve [y]. y.
    match goal with |- context [convertLhsToCall ?ee ?aa ?ll ?pp] => pose proof (@lhs_end ee aa ll pp) as HE2 end. cbv iota beta in HE2. pose proof (within_span HE).
    split; [|zn]. eapply lhs_within; [apply Nat.lt_succ_diag_r|assumption|constructor|exact Logic.I| | |]; zn. }
  destruct t; try exact D; try solve [y].
  - (* [ *) cbv zeta. destruct (match e with EQName _ n => isStatementCall n | _ => false end); y.
Qed.
Lemma if_r lo q u p t s v c : Sr p t s v c -> VR lo q p t s v -> low lo ->  wp (if_body rec u) c (post true lo p (fun p' a => within lo p' a /\ q <= eend a)).
Proof. intros HS HV HL. r_in. unfold if_body. r. r_mid true (fun lo p' a => within lo p' a); [destruct t0; y|y]. Qed.
Lemma caseOption_r lo   p t s v c : Sr p t s v c -> VR lo p p t s v -> low lo ->  wp (caseOption rec) c (post true lo p (fun p' a => within lo p' a /\ p <= eend a)).
Proof. intros HS HV HL. r_in. unfold caseOption. y. Qed.
Ltac r_sub ::= lazymatch goal with
  | |- Wp.wp _ (handleKeyword _) _ _ => r_call handleKeyword_r
  | |- Wp.wp _ (argument _) _ _ => r_call argument_r
  | |- Wp.wp _ (keyedEntry _) _ _ => r_call keyedEntry_r
  | |- Wp.wp _ (selectorEntry _) _ _ => r_call selectorEntry_r
  | |- Wp.wp _ (identifier _) _ _ => eapply identifier_r; [eassumption|eassumption|eassumption|r_in|r_in]
  | |- Wp.wp _ (typeName _) _ _ => eapply typeName_r; [eassumption|eassumption|eassumption|r_in|r_in]
  | |- Wp.wp _ (arrayExpression _) _ _ => r_call arrayExpression_r
  | |- Wp.wp _ (parameterListOf _ PParameter) _ _ => r_call parameterList_r
  | |- Wp.wp _ (parameterList _) _ _ => r_call parameterList2_r
  | |- Wp.wp _ (lambdaParameterList _) _ _ => r_call lambdaParameterList_r
  | |- Wp.wp _ (optParameterType _) _ _ => r_call optParameterType_r
  | |- Wp.wp _ (parameterName _) _ _ => r_call parameterName_r
  | |- Wp.wp _ (parameter _) _ _ => r_call parameter_r
  | |- Wp.wp _ (produce _ _) _ _ => r_call produce_r
  | |- Wp.wp _ (syntacticStatement _) _ _ => r_call syntactic_r
  | |- Wp.wp _ (resource _) _ _ => r_call resource_r
  | |- Wp.wp _ (step _) _ _ => r_call step_r
  | |- Wp.wp _ (className _) _ _ => r_call className_r
  | |- Wp.wp _ (braces _) _ _ => r_call braces_r
  | |- Wp.wp _ (addDefinition _) _ _ => match goal with HL : low ?lo, HS : RngBase.Sr _ _ ?p _ _ _ ?c |- Wp.wp _ _ ?c _ => eapply r_add with (lo := lo) (hi := p); [exact HS|try solve [s1]|lia|lia|r_in] end
  | |- Wp.wp _ (capabilityMapping _ _ _) _ _ => r_call capabilityMapping_r
  | |- Wp.wp _ (selectorsExpression _ _) _ _ => r_call selectors_r
  | |- Wp.wp _ (level_operand _ _) _ _ => r_call level_operand_r
  | |- Wp.wp _ (unary_node _ _ _ _) _ _ => r_call unary_node_r
  | |- Wp.wp _ (signed_number _ _) _ _ => r_call signed_r
  | |- Wp.wp _ (collectQuery _) _ _ => r_call collectQuery_r
  | |- Wp.wp _ (collectExpression _ _) _ _ => r_call collect_r
  | |- Wp.wp _ (optReturnType _) _ _ => r_call optReturnType_r
  | |- Wp.wp _ (lambda _) _ _ => r_call lambda_r
  | |- Wp.wp _ (caseOption _) _ _ => r_call caseOption_r
  end.
Lemma caseOptions_r lo  acc p t s v c : Sr p t s v c -> VR lo p p t s v -> low lo -> Forall (within lo p) acc -> wp (caseOptions_body rec acc) c (post true lo p (fun p' a => Forall (within lo p') a)).
Proof. intros HS HV HL HC. r_in. unfold caseOptions_body. y. Qed.
Lemma case_r lo q  p t s v c : Sr p t s v c -> VR lo q p t s v -> low lo ->  wp (caseExpression rec) c (post true lo p (fun p' a => within lo p' a /\ q <= eend a)).
Proof. intros HS HV HL. r_in. unfold caseExpression. y. Qed.
Ltac r_sub ::= lazymatch goal with
  | |- Wp.wp _ (handleKeyword _) _ _ => r_call handleKeyword_r
  | |- Wp.wp _ (argument _) _ _ => r_call argument_r
  | |- Wp.wp _ (keyedEntry _) _ _ => r_call keyedEntry_r
  | |- Wp.wp _ (selectorEntry _) _ _ => r_call selectorEntry_r
  | |- Wp.wp _ (identifier _) _ _ => eapply identifier_r; [eassumption|eassumption|eassumption|r_in|r_in]
  | |- Wp.wp _ (typeName _) _ _ => eapply typeName_r; [eassumption|eassumption|eassumption|r_in|r_in]
  | |- Wp.wp _ (arrayExpression _) _ _ => r_call arrayExpression_r
  | |- Wp.wp _ (parameterListOf _ PParameter) _ _ => r_call parameterList_r
  | |- Wp.wp _ (parameterList _) _ _ => r_call parameterList2_r
  | |- Wp.wp _ (lambdaParameterList _) _ _ => r_call lambdaParameterList_r
  | |- Wp.wp _ (optParameterType _) _ _ => r_call optParameterType_r
  | |- Wp.wp _ (parameterName _) _ _ => r_call parameterName_r
  | |- Wp.wp _ (parameter _) _ _ => r_call parameter_r
  | |- Wp.wp _ (produce _ _) _ _ => r_call produce_r
  | |- Wp.wp _ (syntacticStatement _) _ _ => r_call syntactic_r
  | |- Wp.wp _ (resource _) _ _ => r_call resource_r
  | |- Wp.wp _ (step _) _ _ => r_call step_r
  | |- Wp.wp _ (className _) _ _ => r_call className_r
  | |- Wp.wp _ (braces _) _ _ => r_call braces_r
  | |- Wp.wp _ (addDefinition _) _ _ => match goal with HL : low ?lo, HS : RngBase.Sr _ _ ?p _ _ _ ?c |- Wp.wp _ _ ?c _ => eapply r_add with (lo := lo) (hi := p); [exact HS|try solve [s1]|lia|lia|r_in] end
  | |- Wp.wp _ (capabilityMapping _ _ _) _ _ => r_call capabilityMapping_r
  | |- Wp.wp _ (selectorsExpression _ _) _ _ => r_call selectors_r
  | |- Wp.wp _ (level_operand _ _) _ _ => r_call level_operand_r
  | |- Wp.wp _ (unary_node _ _ _ _) _ _ => r_call unary_node_r
  | |- Wp.wp _ (signed_number _ _) _ _ => r_call signed_r
  | |- Wp.wp _ (collectQuery _) _ _ => r_call collectQuery_r
  | |- Wp.wp _ (collectExpression _ _) _ _ => r_call collect_r
  | |- Wp.wp _ (optReturnType _) _ _ => r_call optReturnType_r
  | |- Wp.wp _ (lambda _) _ _ => r_call lambda_r
  | |- Wp.wp _ (caseOption _) _ _ => r_call caseOption_r
  | |- Wp.wp _ (caseExpression _) _ _ => r_call case_r
  end.
Lemma attributeOperation_r lo q  p t s v c : Sr p t s v c -> VR lo q p t s v -> low lo ->  wp (attributeOperation rec) c (post true lo p (fun p' a => within lo p' a)).
Proof. intros HS HV HL. r_in. unfold attributeOperation. y. Qed.
Ltac r_sub ::= lazymatch goal with
  | |- Wp.wp _ (handleKeyword _) _ _ => r_call handleKeyword_r
  | |- Wp.wp _ (argument _) _ _ => r_call argument_r
  | |- Wp.wp _ (keyedEntry _) _ _ => r_call keyedEntry_r
  | |- Wp.wp _ (selectorEntry _) _ _ => r_call selectorEntry_r
  | |- Wp.wp _ (identifier _) _ _ => eapply identifier_r; [eassumption|eassumption|eassumption|r_in|r_in]
  | |- Wp.wp _ (typeName _) _ _ => eapply typeName_r; [eassumption|eassumption|eassumption|r_in|r_in]
  | |- Wp.wp _ (arrayExpression _) _ _ => r_call arrayExpression_r
  | |- Wp.wp _ (parameterListOf _ PParameter) _ _ => r_call parameterList_r
  | |- Wp.wp _ (parameterList _) _ _ => r_call parameterList2_r
  | |- Wp.wp _ (lambdaParameterList _) _ _ => r_call lambdaParameterList_r
  | |- Wp.wp _ (optParameterType _) _ _ => r_call optParameterType_r
  | |- Wp.wp _ (parameterName _) _ _ => r_call parameterName_r
  | |- Wp.wp _ (parameter _) _ _ => r_call parameter_r
  | |- Wp.wp _ (produce _ _) _ _ => r_call produce_r
  | |- Wp.wp _ (syntacticStatement _) _ _ => r_call syntactic_r
  | |- Wp.wp _ (resource _) _ _ => r_call resource_r
  | |- Wp.wp _ (step _) _ _ => r_call step_r
  | |- Wp.wp _ (className _) _ _ => r_call className_r
  | |- Wp.wp _ (braces _) _ _ => r_call braces_r
  | |- Wp.wp _ (addDefinition _) _ _ => match goal with HL : low ?lo, HS : RngBase.Sr _ _ ?p _ _ _ ?c |- Wp.wp _ _ ?c _ => eapply r_add with (lo := lo) (hi := p); [exact HS|try solve [s1]|lia|lia|r_in] end
  | |- Wp.wp _ (capabilityMapping _ _ _) _ _ => r_call capabilityMapping_r
  | |- Wp.wp _ (selectorsExpression _ _) _ _ => r_call selectors_r
  | |- Wp.wp _ (level_operand _ _) _ _ => r_call level_operand_r
  | |- Wp.wp _ (unary_node _ _ _ _) _ _ => r_call unary_node_r
  | |- Wp.wp _ (signed_number _ _) _ _ => r_call signed_r
  | |- Wp.wp _ (collectQuery _) _ _ => r_call collectQuery_r
  | |- Wp.wp _ (collectExpression _ _) _ _ => r_call collect_r
  | |- Wp.wp _ (optReturnType _) _ _ => r_call optReturnType_r
  | |- Wp.wp _ (lambda _) _ _ => r_call lambda_r
  | |- Wp.wp _ (caseOption _) _ _ => r_call caseOption_r
  | |- Wp.wp _ (caseExpression _) _ _ => r_call case_r
  | |- Wp.wp _ (attributeOperation _) _ _ => r_call attributeOperation_r
  end.
Lemma attrOps_r lo  acc p t s v c : Sr p t s v c -> VR lo p p t s v -> low lo -> Forall (within lo p) acc -> wp (attrOps_body rec acc) c (post true lo p (fun p' a => Forall (within lo p') a)).
Proof. intros HS HV HL HC. r_in. unfold attrOps_body. y. Qed.
Lemma resourceBody_r lo  title p t s v c : Sr p t s v c -> VR lo p p t s v -> low lo -> owithin lo p title -> wp (resourceBody rec title) c (post true lo p (fun p' a => within lo p' a)).
Proof. intros HS HV HL HT. r_in. unfold resourceBody. destruct title as [e|]; [cbn [owithin] in HT|]; y. Qed.
Ltac r_sub ::= lazymatch goal with
  | |- Wp.wp _ (handleKeyword _) _ _ => r_call handleKeyword_r
  | |- Wp.wp _ (argument _) _ _ => r_call argument_r
  | |- Wp.wp _ (keyedEntry _) _ _ => r_call keyedEntry_r
  | |- Wp.wp _ (selectorEntry _) _ _ => r_call selectorEntry_r
  | |- Wp.wp _ (identifier _) _ _ => eapply identifier_r; [eassumption|eassumption|eassumption|r_in|r_in]
  | |- Wp.wp _ (typeName _) _ _ => eapply typeName_r; [eassumption|eassumption|eassumption|r_in|r_in]
  | |- Wp.wp _ (arrayExpression _) _ _ => r_call arrayExpression_r
  | |- Wp.wp _ (parameterListOf _ PParameter) _ _ => r_call parameterList_r
  | |- Wp.wp _ (parameterList _) _ _ => r_call parameterList2_r
  | |- Wp.wp _ (lambdaParameterList _) _ _ => r_call lambdaParameterList_r
  | |- Wp.wp _ (optParameterType _) _ _ => r_call optParameterType_r
  | |- Wp.wp _ (parameterName _) _ _ => r_call parameterName_r
  | |- Wp.wp _ (parameter _) _ _ => r_call parameter_r
  | |- Wp.wp _ (produce _ _) _ _ => r_call produce_r
  | |- Wp.wp _ (syntacticStatement _) _ _ => r_call syntactic_r
  | |- Wp.wp _ (resource _) _ _ => r_call resource_r
  | |- Wp.wp _ (step _) _ _ => r_call step_r
  | |- Wp.wp _ (className _) _ _ => r_call className_r
  | |- Wp.wp _ (braces _) _ _ => r_call braces_r
  | |- Wp.wp _ (addDefinition _) _ _ => match goal with HL : low ?lo, HS : RngBase.Sr _ _ ?p _ _ _ ?c |- Wp.wp _ _ ?c _ => eapply r_add with (lo := lo) (hi := p); [exact HS|try solve [s1]|lia|lia|r_in] end
  | |- Wp.wp _ (capabilityMapping _ _ _) _ _ => r_call capabilityMapping_r
  | |- Wp.wp _ (selectorsExpression _ _) _ _ => r_call selectors_r
  | |- Wp.wp _ (level_operand _ _) _ _ => r_call level_operand_r
  | |- Wp.wp _ (unary_node _ _ _ _) _ _ => r_call unary_node_r
  | |- Wp.wp _ (signed_number _ _) _ _ => r_call signed_r
  | |- Wp.wp _ (collectQuery _) _ _ => r_call collectQuery_r
  | |- Wp.wp _ (collectExpression _ _) _ _ => r_call collect_r
  | |- Wp.wp _ (optReturnType _) _ _ => r_call optReturnType_r
  | |- Wp.wp _ (lambda _) _ _ => r_call lambda_r
  | |- Wp.wp _ (caseOption _) _ _ => r_call caseOption_r
  | |- Wp.wp _ (caseExpression _) _ _ => r_call case_r
  | |- Wp.wp _ (attributeOperation _) _ _ => r_call attributeOperation_r
  | |- Wp.wp _ (resourceBody _ _) _ _ => r_call resourceBody_r
  end.
Lemma bodies_r lo  title acc p t s v c : Sr p t s v c -> VR lo p p t s v -> low lo -> owithin lo p title -> Forall (within lo p) acc -> wp (bodies_body rec title acc) c (post true lo p (fun p' a => Forall (within lo p') a)).
Proof. intros HS HV HL HT HC. r_in. unfold bodies_body. r. r_case; [y|]. r. r_case; y. Qed.
Ltac r_sub ::= lazymatch goal with
  | |- Wp.wp _ (handleKeyword _) _ _ => r_call handleKeyword_r
  | |- Wp.wp _ (argument _) _ _ => r_call argument_r
  | |- Wp.wp _ (keyedEntry _) _ _ => r_call keyedEntry_r
  | |- Wp.wp _ (selectorEntry _) _ _ => r_call selectorEntry_r
  | |- Wp.wp _ (identifier _) _ _ => eapply identifier_r; [eassumption|eassumption|eassumption|r_in|r_in]
  | |- Wp.wp _ (typeName _) _ _ => eapply typeName_r; [eassumption|eassumption|eassumption|r_in|r_in]
  | |- Wp.wp _ (arrayExpression _) _ _ => r_call arrayExpression_r
  | |- Wp.wp _ (parameterListOf _ PParameter) _ _ => r_call parameterList_r
  | |- Wp.wp _ (parameterList _) _ _ => r_call parameterList2_r
  | |- Wp.wp _ (lambdaParameterList _) _ _ => r_call lambdaParameterList_r
  | |- Wp.wp _ (optParameterType _) _ _ => r_call optParameterType_r
  | |- Wp.wp _ (parameterName _) _ _ => r_call parameterName_r
  | |- Wp.wp _ (parameter _) _ _ => r_call parameter_r
  | |- Wp.wp _ (produce _ _) _ _ => r_call produce_r
  | |- Wp.wp _ (syntacticStatement _) _ _ => r_call syntactic_r
  | |- Wp.wp _ (resource _) _ _ => r_call resource_r
  | |- Wp.wp _ (step _) _ _ => r_call step_r
  | |- Wp.wp _ (className _) _ _ => r_call className_r
  | |- Wp.wp _ (braces _) _ _ => r_call braces_r
  | |- Wp.wp _ (addDefinition _) _ _ => match goal with HL : low ?lo, HS : RngBase.Sr _ _ ?p _ _ _ ?c |- Wp.wp _ _ ?c _ => eapply r_add with (lo := lo) (hi := p); [exact HS|try solve [s1]|lia|lia|r_in] end
  | |- Wp.wp _ (capabilityMapping _ _ _) _ _ => r_call capabilityMapping_r
  | |- Wp.wp _ (selectorsExpression _ _) _ _ => r_call selectors_r
  | |- Wp.wp _ (level_operand _ _) _ _ => r_call level_operand_r
  | |- Wp.wp _ (unary_node _ _ _ _) _ _ => r_call unary_node_r
  | |- Wp.wp _ (signed_number _ _) _ _ => r_call signed_r
  | |- Wp.wp _ (collectQuery _) _ _ => r_call collectQuery_r
  | |- Wp.wp _ (collectExpression _ _) _ _ => r_call collect_r
  | |- Wp.wp _ (optReturnType _) _ _ => r_call optReturnType_r
  | |- Wp.wp _ (lambda _) _ _ => r_call lambda_r
  | |- Wp.wp _ (caseOption _) _ _ => r_call caseOption_r
  | |- Wp.wp _ (caseExpression _) _ _ => r_call case_r
  | |- Wp.wp _ (attributeOperation _) _ _ => r_call attributeOperation_r
  | |- Wp.wp _ (resourceBody _ _) _ _ => r_call resourceBody_r
  | |- Wp.wp _ (resourceShape _) _ _ => match goal with HL : low ?lo, HS : RngBase.Sr _ _ _ _ _ _ ?c, HW : within _ _ ?e |- Wp.wp _ (resourceShape ?e) ?c _ => eapply shape_r; [exact HS|exact HW|lia|lia|r_in] end
  end.
Lemma resourceExpr_r lo  st e f p t s v c : Sr p t s v c -> VR lo p p t s v -> low lo -> lo <= st <= p -> within lo p e -> wp (resourceExpr_body rec st e f) c (post true lo p (fun p' a => within lo p' a /\ p <= eend a)).
Proof. intros HS HV HL HST HE. r_in. unfold resourceExpr_body. cbv zeta. r. r_mid true (fun lo p' a => owithin lo p' a); [y|]. r. r_case; y. Qed.
Lemma alias_r lo q p t s v c : Sr p t s v c -> VR lo q p t s v -> low lo -> wp (alias_body rec) c (post true lo p (fun p' a => within lo p' a)).
Proof.
  intros HS HV HL. r_in. unfold alias_body. r. cbv zeta.
  match goal with X : within _ _ a |- _ => rename X into HA; pose proof (within_span HA) as HSA; pose proof (within_children HA) as HCA end.
  assert (D : wp (ret a) c0 (post true lo p (fun p' a => within lo p' a))) by y.
  destruct a; try exact D.
  - (* hash *) y.
  - (* list *) destruct elements as [|x [|? ?]]; [exact D| |exact D]. cbn [children] in HCA. inversion HCA; subst. y.
  - (* name *) y. match goal with X : within _ _ ?h |- Wp.wp _ (match ?h with _ => _ end) _ _ => pose proof (within_children X) as HCH; destruct h; try exact Logic.I end. cbn [children] in HCH. r_case; y.
Qed.
Ltac r_sub ::= lazymatch goal with
  | |- Wp.wp _ (handleKeyword _) _ _ => r_call handleKeyword_r
  | |- Wp.wp _ (argument _) _ _ => r_call argument_r
  | |- Wp.wp _ (keyedEntry _) _ _ => r_call keyedEntry_r
  | |- Wp.wp _ (selectorEntry _) _ _ => r_call selectorEntry_r
  | |- Wp.wp _ (identifier _) _ _ => eapply identifier_r; [eassumption|eassumption|eassumption|r_in|r_in]
  | |- Wp.wp _ (typeName _) _ _ => eapply typeName_r; [eassumption|eassumption|eassumption|r_in|r_in]
  | |- Wp.wp _ (arrayExpression _) _ _ => r_call arrayExpression_r
  | |- Wp.wp _ (parameterListOf _ PParameter) _ _ => r_call parameterList_r
  | |- Wp.wp _ (parameterList _) _ _ => r_call parameterList2_r
  | |- Wp.wp _ (lambdaParameterList _) _ _ => r_call lambdaParameterList_r
  | |- Wp.wp _ (optParameterType _) _ _ => r_call optParameterType_r
  | |- Wp.wp _ (parameterName _) _ _ => r_call parameterName_r
  | |- Wp.wp _ (parameter _) _ _ => r_call parameter_r
  | |- Wp.wp _ (produce _ _) _ _ => r_call produce_r
  | |- Wp.wp _ (syntacticStatement _) _ _ => r_call syntactic_r
  | |- Wp.wp _ (resource _) _ _ => r_call resource_r
  | |- Wp.wp _ (step _) _ _ => r_call step_r
  | |- Wp.wp _ (className _) _ _ => r_call className_r
  | |- Wp.wp _ (braces _) _ _ => r_call braces_r
  | |- Wp.wp _ (addDefinition _) _ _ => match goal with HL : low ?lo, HS : RngBase.Sr _ _ ?p _ _ _ ?c |- Wp.wp _ _ ?c _ => eapply r_add with (lo := lo) (hi := p); [exact HS|try solve [s1]|lia|lia|r_in] end
  | |- Wp.wp _ (capabilityMapping _ _ _) _ _ => r_call capabilityMapping_r
  | |- Wp.wp _ (selectorsExpression _ _) _ _ => r_call selectors_r
  | |- Wp.wp _ (level_operand _ _) _ _ => r_call level_operand_r
  | |- Wp.wp _ (unary_node _ _ _ _) _ _ => r_call unary_node_r
  | |- Wp.wp _ (signed_number _ _) _ _ => r_call signed_r
  | |- Wp.wp _ (collectQuery _) _ _ => r_call collectQuery_r
  | |- Wp.wp _ (collectExpression _ _) _ _ => r_call collect_r
  | |- Wp.wp _ (optReturnType _) _ _ => r_call optReturnType_r
  | |- Wp.wp _ (lambda _) _ _ => r_call lambda_r
  | |- Wp.wp _ (caseOption _) _ _ => r_call caseOption_r
  | |- Wp.wp _ (caseExpression _) _ _ => r_call case_r
  | |- Wp.wp _ (attributeOperation _) _ _ => r_call attributeOperation_r
  | |- Wp.wp _ (resourceBody _ _) _ _ => r_call resourceBody_r
  | |- Wp.wp _ (resourceShape _) _ _ => match goal with HL : low ?lo, HS : RngBase.Sr _ _ _ _ _ _ ?c, HW : within _ _ ?e |- Wp.wp _ (resourceShape ?e) ?c _ => eapply shape_r; [exact HS|exact HW|lia|lia|r_in] end
  | |- Wp.wp _ (alias_body _) _ _ => r_call alias_r
  end.
Lemma typeAlias_r lo q p t s v c : Sr p t s v c -> VR lo q p t s v -> low lo -> wp (typeAliasOrDefinition rec) c (post true lo p (fun p' a => within lo p' a /\ q <= eend a)).
Proof.
  intros HS HV HL. r_in. unfold typeAliasOrDefinition. r.
  match goal with X : within _ _ a |- _ => rename X into HA end.
  destruct a; try exact Logic.I; y.
Qed.
Ltac r_sub ::= lazymatch goal with
  | |- Wp.wp _ (handleKeyword _) _ _ => r_call handleKeyword_r
  | |- Wp.wp _ (argument _) _ _ => r_call argument_r
  | |- Wp.wp _ (keyedEntry _) _ _ => r_call keyedEntry_r
  | |- Wp.wp _ (selectorEntry _) _ _ => r_call selectorEntry_r
  | |- Wp.wp _ (identifier _) _ _ => eapply identifier_r; [eassumption|eassumption|eassumption|r_in|r_in]
  | |- Wp.wp _ (typeName _) _ _ => eapply typeName_r; [eassumption|eassumption|eassumption|r_in|r_in]
  | |- Wp.wp _ (arrayExpression _) _ _ => r_call arrayExpression_r
  | |- Wp.wp _ (parameterListOf _ PParameter) _ _ => r_call parameterList_r
  | |- Wp.wp _ (parameterList _) _ _ => r_call parameterList2_r
  | |- Wp.wp _ (lambdaParameterList _) _ _ => r_call lambdaParameterList_r
  | |- Wp.wp _ (optParameterType _) _ _ => r_call optParameterType_r
  | |- Wp.wp _ (parameterName _) _ _ => r_call parameterName_r
  | |- Wp.wp _ (parameter _) _ _ => r_call parameter_r
  | |- Wp.wp _ (produce _ _) _ _ => r_call produce_r
  | |- Wp.wp _ (syntacticStatement _) _ _ => r_call syntactic_r
  | |- Wp.wp _ (resource _) _ _ => r_call resource_r
  | |- Wp.wp _ (step _) _ _ => r_call step_r
  | |- Wp.wp _ (className _) _ _ => r_call className_r
  | |- Wp.wp _ (braces _) _ _ => r_call braces_r
  | |- Wp.wp _ (addDefinition _) _ _ => match goal with HL : low ?lo, HS : RngBase.Sr _ _ ?p _ _ _ ?c |- Wp.wp _ _ ?c _ => eapply r_add with (lo := lo) (hi := p); [exact HS|try solve [s1]|lia|lia|r_in] end
  | |- Wp.wp _ (capabilityMapping _ _ _) _ _ => r_call capabilityMapping_r
  | |- Wp.wp _ (selectorsExpression _ _) _ _ => r_call selectors_r
  | |- Wp.wp _ (level_operand _ _) _ _ => r_call level_operand_r
  | |- Wp.wp _ (unary_node _ _ _ _) _ _ => r_call unary_node_r
  | |- Wp.wp _ (signed_number _ _) _ _ => r_call signed_r
  | |- Wp.wp _ (collectQuery _) _ _ => r_call collectQuery_r
  | |- Wp.wp _ (collectExpression _ _) _ _ => r_call collect_r
  | |- Wp.wp _ (optReturnType _) _ _ => r_call optReturnType_r
  | |- Wp.wp _ (lambda _) _ _ => r_call lambda_r
  | |- Wp.wp _ (caseOption _) _ _ => r_call caseOption_r
  | |- Wp.wp _ (caseExpression _) _ _ => r_call case_r
  | |- Wp.wp _ (attributeOperation _) _ _ => r_call attributeOperation_r
  | |- Wp.wp _ (resourceBody _ _) _ _ => r_call resourceBody_r
  | |- Wp.wp _ (resourceShape _) _ _ => match goal with HL : low ?lo, HS : RngBase.Sr _ _ _ _ _ _ ?c, HW : within _ _ ?e |- Wp.wp _ (resourceShape ?e) ?c _ => eapply shape_r; [exact HS|exact HW|lia|lia|r_in] end
  | |- Wp.wp _ (alias_body _) _ _ => r_call alias_r
  | |- Wp.wp _ (typeAliasOrDefinition _) _ _ => r_call typeAlias_r
  end.
Lemma optParameterList_r lo   p t s v c : Sr p t s v c -> VR lo p p t s v -> low lo ->  wp (optParameterList rec) c (post true lo p (fun p' a => Forall (within lo p') a)).
Proof. intros HS HV HL. r_in. unfold optParameterList. y. Qed.
Ltac r_sub ::= lazymatch goal with
  | |- Wp.wp _ (handleKeyword _) _ _ => r_call handleKeyword_r
  | |- Wp.wp _ (argument _) _ _ => r_call argument_r
  | |- Wp.wp _ (keyedEntry _) _ _ => r_call keyedEntry_r
  | |- Wp.wp _ (selectorEntry _) _ _ => r_call selectorEntry_r
  | |- Wp.wp _ (identifier _) _ _ => eapply identifier_r; [eassumption|eassumption|eassumption|r_in|r_in]
  | |- Wp.wp _ (typeName _) _ _ => eapply typeName_r; [eassumption|eassumption|eassumption|r_in|r_in]
  | |- Wp.wp _ (arrayExpression _) _ _ => r_call arrayExpression_r
  | |- Wp.wp _ (parameterListOf _ PParameter) _ _ => r_call parameterList_r
  | |- Wp.wp _ (parameterList _) _ _ => r_call parameterList2_r
  | |- Wp.wp _ (lambdaParameterList _) _ _ => r_call lambdaParameterList_r
  | |- Wp.wp _ (optParameterType _) _ _ => r_call optParameterType_r
  | |- Wp.wp _ (parameterName _) _ _ => r_call parameterName_r
  | |- Wp.wp _ (parameter _) _ _ => r_call parameter_r
  | |- Wp.wp _ (produce _ _) _ _ => r_call produce_r
  | |- Wp.wp _ (syntacticStatement _) _ _ => r_call syntactic_r
  | |- Wp.wp _ (resource _) _ _ => r_call resource_r
  | |- Wp.wp _ (step _) _ _ => r_call step_r
  | |- Wp.wp _ (className _) _ _ => r_call className_r
  | |- Wp.wp _ (braces _) _ _ => r_call braces_r
  | |- Wp.wp _ (addDefinition _) _ _ => match goal with HL : low ?lo, HS : RngBase.Sr _ _ ?p _ _ _ ?c |- Wp.wp _ _ ?c _ => eapply r_add with (lo := lo) (hi := p); [exact HS|try solve [s1]|lia|lia|r_in] end
  | |- Wp.wp _ (capabilityMapping _ _ _) _ _ => r_call capabilityMapping_r
  | |- Wp.wp _ (selectorsExpression _ _) _ _ => r_call selectors_r
  | |- Wp.wp _ (level_operand _ _) _ _ => r_call level_operand_r
  | |- Wp.wp _ (unary_node _ _ _ _) _ _ => r_call unary_node_r
  | |- Wp.wp _ (signed_number _ _) _ _ => r_call signed_r
  | |- Wp.wp _ (collectQuery _) _ _ => r_call collectQuery_r
  | |- Wp.wp _ (collectExpression _ _) _ _ => r_call collect_r
  | |- Wp.wp _ (optReturnType _) _ _ => r_call optReturnType_r
  | |- Wp.wp _ (lambda _) _ _ => r_call lambda_r
  | |- Wp.wp _ (caseOption _) _ _ => r_call caseOption_r
  | |- Wp.wp _ (caseExpression _) _ _ => r_call case_r
  | |- Wp.wp _ (attributeOperation _) _ _ => r_call attributeOperation_r
  | |- Wp.wp _ (resourceBody _ _) _ _ => r_call resourceBody_r
  | |- Wp.wp _ (resourceShape _) _ _ => match goal with HL : low ?lo, HS : RngBase.Sr _ _ _ _ _ _ ?c, HW : within _ _ ?e |- Wp.wp _ (resourceShape ?e) ?c _ => eapply shape_r; [exact HS|exact HW|lia|lia|r_in] end
  | |- Wp.wp _ (alias_body _) _ _ => r_call alias_r
  | |- Wp.wp _ (typeAliasOrDefinition _) _ _ => r_call typeAlias_r
  | |- Wp.wp _ (optParameterList _) _ _ => r_call optParameterList_r
  end.
Lemma definitionName_r lo  code p t s v c : Sr p t s v c -> VR lo p p t s v -> low lo ->  wp (definitionName code) c (post true lo p (fun p' a => True)).
Proof. intros HS HV HL. r_in. unfold definitionName. y. Qed.
Ltac r_sub ::= lazymatch goal with
  | |- Wp.wp _ (handleKeyword _) _ _ => r_call handleKeyword_r
  | |- Wp.wp _ (argument _) _ _ => r_call argument_r
  | |- Wp.wp _ (keyedEntry _) _ _ => r_call keyedEntry_r
  | |- Wp.wp _ (selectorEntry _) _ _ => r_call selectorEntry_r
  | |- Wp.wp _ (identifier _) _ _ => eapply identifier_r; [eassumption|eassumption|eassumption|r_in|r_in]
  | |- Wp.wp _ (typeName _) _ _ => eapply typeName_r; [eassumption|eassumption|eassumption|r_in|r_in]
  | |- Wp.wp _ (arrayExpression _) _ _ => r_call arrayExpression_r
  | |- Wp.wp _ (parameterListOf _ PParameter) _ _ => r_call parameterList_r
  | |- Wp.wp _ (parameterList _) _ _ => r_call parameterList2_r
  | |- Wp.wp _ (lambdaParameterList _) _ _ => r_call lambdaParameterList_r
  | |- Wp.wp _ (optParameterType _) _ _ => r_call optParameterType_r
  | |- Wp.wp _ (parameterName _) _ _ => r_call parameterName_r
  | |- Wp.wp _ (parameter _) _ _ => r_call parameter_r
  | |- Wp.wp _ (produce _ _) _ _ => r_call produce_r
  | |- Wp.wp _ (syntacticStatement _) _ _ => r_call syntactic_r
  | |- Wp.wp _ (resource _) _ _ => r_call resource_r
  | |- Wp.wp _ (step _) _ _ => r_call step_r
  | |- Wp.wp _ (className _) _ _ => r_call className_r
  | |- Wp.wp _ (braces _) _ _ => r_call braces_r
  | |- Wp.wp _ (addDefinition _) _ _ => match goal with HL : low ?lo, HS : RngBase.Sr _ _ ?p _ _ _ ?c |- Wp.wp _ _ ?c _ => eapply r_add with (lo := lo) (hi := p); [exact HS|try solve [s1]|lia|lia|r_in] end
  | |- Wp.wp _ (capabilityMapping _ _ _) _ _ => r_call capabilityMapping_r
  | |- Wp.wp _ (selectorsExpression _ _) _ _ => r_call selectors_r
  | |- Wp.wp _ (level_operand _ _) _ _ => r_call level_operand_r
  | |- Wp.wp _ (unary_node _ _ _ _) _ _ => r_call unary_node_r
  | |- Wp.wp _ (signed_number _ _) _ _ => r_call signed_r
  | |- Wp.wp _ (collectQuery _) _ _ => r_call collectQuery_r
  | |- Wp.wp _ (collectExpression _ _) _ _ => r_call collect_r
  | |- Wp.wp _ (optReturnType _) _ _ => r_call optReturnType_r
  | |- Wp.wp _ (lambda _) _ _ => r_call lambda_r
  | |- Wp.wp _ (caseOption _) _ _ => r_call caseOption_r
  | |- Wp.wp _ (caseExpression _) _ _ => r_call case_r
  | |- Wp.wp _ (attributeOperation _) _ _ => r_call attributeOperation_r
  | |- Wp.wp _ (resourceBody _ _) _ _ => r_call resourceBody_r
  | |- Wp.wp _ (resourceShape _) _ _ => match goal with HL : low ?lo, HS : RngBase.Sr _ _ _ _ _ _ ?c, HW : within _ _ ?e |- Wp.wp _ (resourceShape ?e) ?c _ => eapply shape_r; [exact HS|exact HW|lia|lia|r_in] end
  | |- Wp.wp _ (alias_body _) _ _ => r_call alias_r
  | |- Wp.wp _ (typeAliasOrDefinition _) _ _ => r_call typeAlias_r
  | |- Wp.wp _ (optParameterList _) _ _ => r_call optParameterList_r
  | |- Wp.wp _ (definitionName _) _ _ => r_call definitionName_r
  end.
Lemma function_r lo q  p t s v c : Sr p t s v c -> VR lo q p t s v -> low lo ->  wp (functionDefinition rec) c (post true lo p (fun p' a => within lo p' a /\ q <= eend a)).
Proof. intros HS HV HL. r_in. unfold functionDefinition. y. Qed.
Ltac r_sub ::= lazymatch goal with
  | |- Wp.wp _ (handleKeyword _) _ _ => r_call handleKeyword_r
  | |- Wp.wp _ (argument _) _ _ => r_call argument_r
  | |- Wp.wp _ (keyedEntry _) _ _ => r_call keyedEntry_r
  | |- Wp.wp _ (selectorEntry _) _ _ => r_call selectorEntry_r
  | |- Wp.wp _ (identifier _) _ _ => eapply identifier_r; [eassumption|eassumption|eassumption|r_in|r_in]
  | |- Wp.wp _ (typeName _) _ _ => eapply typeName_r; [eassumption|eassumption|eassumption|r_in|r_in]
  | |- Wp.wp _ (arrayExpression _) _ _ => r_call arrayExpression_r
  | |- Wp.wp _ (parameterListOf _ PParameter) _ _ => r_call parameterList_r
  | |- Wp.wp _ (parameterList _) _ _ => r_call parameterList2_r
  | |- Wp.wp _ (lambdaParameterList _) _ _ => r_call lambdaParameterList_r
  | |- Wp.wp _ (optParameterType _) _ _ => r_call optParameterType_r
  | |- Wp.wp _ (parameterName _) _ _ => r_call parameterName_r
  | |- Wp.wp _ (parameter _) _ _ => r_call parameter_r
  | |- Wp.wp _ (produce _ _) _ _ => r_call produce_r
  | |- Wp.wp _ (syntacticStatement _) _ _ => r_call syntactic_r
  | |- Wp.wp _ (resource _) _ _ => r_call resource_r
  | |- Wp.wp _ (step _) _ _ => r_call step_r
  | |- Wp.wp _ (className _) _ _ => r_call className_r
  | |- Wp.wp _ (braces _) _ _ => r_call braces_r
  | |- Wp.wp _ (addDefinition _) _ _ => match goal with HL : low ?lo, HS : RngBase.Sr _ _ ?p _ _ _ ?c |- Wp.wp _ _ ?c _ => eapply r_add with (lo := lo) (hi := p); [exact HS|try solve [s1]|lia|lia|r_in] end
  | |- Wp.wp _ (capabilityMapping _ _ _) _ _ => r_call capabilityMapping_r
  | |- Wp.wp _ (selectorsExpression _ _) _ _ => r_call selectors_r
  | |- Wp.wp _ (level_operand _ _) _ _ => r_call level_operand_r
  | |- Wp.wp _ (unary_node _ _ _ _) _ _ => r_call unary_node_r
  | |- Wp.wp _ (signed_number _ _) _ _ => r_call signed_r
  | |- Wp.wp _ (collectQuery _) _ _ => r_call collectQuery_r
  | |- Wp.wp _ (collectExpression _ _) _ _ => r_call collect_r
  | |- Wp.wp _ (optReturnType _) _ _ => r_call optReturnType_r
  | |- Wp.wp _ (lambda _) _ _ => r_call lambda_r
  | |- Wp.wp _ (caseOption _) _ _ => r_call caseOption_r
  | |- Wp.wp _ (caseExpression _) _ _ => r_call case_r
  | |- Wp.wp _ (attributeOperation _) _ _ => r_call attributeOperation_r
  | |- Wp.wp _ (resourceBody _ _) _ _ => r_call resourceBody_r
  | |- Wp.wp _ (resourceShape _) _ _ => match goal with HL : low ?lo, HS : RngBase.Sr _ _ _ _ _ _ ?c, HW : within _ _ ?e |- Wp.wp _ (resourceShape ?e) ?c _ => eapply shape_r; [exact HS|exact HW|lia|lia|r_in] end
  | |- Wp.wp _ (alias_body _) _ _ => r_call alias_r
  | |- Wp.wp _ (typeAliasOrDefinition _) _ _ => r_call typeAlias_r
  | |- Wp.wp _ (optParameterList _) _ _ => r_call optParameterList_r
  | |- Wp.wp _ (definitionName _) _ _ => r_call definitionName_r
  | |- Wp.wp _ (functionDefinition _) _ _ => r_call function_r
  end.
Lemma plan_r lo q  p t s v c : Sr p t s v c -> VR lo q p t s v -> low lo ->  wp (planDefinition rec) c (post true lo p (fun p' a => within lo p' a /\ q <= eend a)).
Proof. intros HS HV HL. r_in. unfold planDefinition. y. Qed.
Ltac r_sub ::= lazymatch goal with
  | |- Wp.wp _ (handleKeyword _) _ _ => r_call handleKeyword_r
  | |- Wp.wp _ (argument _) _ _ => r_call argument_r
  | |- Wp.wp _ (keyedEntry _) _ _ => r_call keyedEntry_r
  | |- Wp.wp _ (selectorEntry _) _ _ => r_call selectorEntry_r
  | |- Wp.wp _ (identifier _) _ _ => eapply identifier_r; [eassumption|eassumption|eassumption|r_in|r_in]
  | |- Wp.wp _ (typeName _) _ _ => eapply typeName_r; [eassumption|eassumption|eassumption|r_in|r_in]
  | |- Wp.wp _ (arrayExpression _) _ _ => r_call arrayExpression_r
  | |- Wp.wp _ (parameterListOf _ PParameter) _ _ => r_call parameterList_r
  | |- Wp.wp _ (parameterList _) _ _ => r_call parameterList2_r
  | |- Wp.wp _ (lambdaParameterList _) _ _ => r_call lambdaParameterList_r
  | |- Wp.wp _ (optParameterType _) _ _ => r_call optParameterType_r
  | |- Wp.wp _ (parameterName _) _ _ => r_call parameterName_r
  | |- Wp.wp _ (parameter _) _ _ => r_call parameter_r
  | |- Wp.wp _ (produce _ _) _ _ => r_call produce_r
  | |- Wp.wp _ (syntacticStatement _) _ _ => r_call syntactic_r
  | |- Wp.wp _ (resource _) _ _ => r_call resource_r
  | |- Wp.wp _ (step _) _ _ => r_call step_r
  | |- Wp.wp _ (className _) _ _ => r_call className_r
  | |- Wp.wp _ (braces _) _ _ => r_call braces_r
  | |- Wp.wp _ (addDefinition _) _ _ => match goal with HL : low ?lo, HS : RngBase.Sr _ _ ?p _ _ _ ?c |- Wp.wp _ _ ?c _ => eapply r_add with (lo := lo) (hi := p); [exact HS|try solve [s1]|lia|lia|r_in] end
  | |- Wp.wp _ (capabilityMapping _ _ _) _ _ => r_call capabilityMapping_r
  | |- Wp.wp _ (selectorsExpression _ _) _ _ => r_call selectors_r
  | |- Wp.wp _ (level_operand _ _) _ _ => r_call level_operand_r
  | |- Wp.wp _ (unary_node _ _ _ _) _ _ => r_call unary_node_r
  | |- Wp.wp _ (signed_number _ _) _ _ => r_call signed_r
  | |- Wp.wp _ (collectQuery _) _ _ => r_call collectQuery_r
  | |- Wp.wp _ (collectExpression _ _) _ _ => r_call collect_r
  | |- Wp.wp _ (optReturnType _) _ _ => r_call optReturnType_r
  | |- Wp.wp _ (lambda _) _ _ => r_call lambda_r
  | |- Wp.wp _ (caseOption _) _ _ => r_call caseOption_r
  | |- Wp.wp _ (caseExpression _) _ _ => r_call case_r
  | |- Wp.wp _ (attributeOperation _) _ _ => r_call attributeOperation_r
  | |- Wp.wp _ (resourceBody _ _) _ _ => r_call resourceBody_r
  | |- Wp.wp _ (resourceShape _) _ _ => match goal with HL : low ?lo, HS : RngBase.Sr _ _ _ _ _ _ ?c, HW : within _ _ ?e |- Wp.wp _ (resourceShape ?e) ?c _ => eapply shape_r; [exact HS|exact HW|lia|lia|r_in] end
  | |- Wp.wp _ (alias_body _) _ _ => r_call alias_r
  | |- Wp.wp _ (typeAliasOrDefinition _) _ _ => r_call typeAlias_r
  | |- Wp.wp _ (optParameterList _) _ _ => r_call optParameterList_r
  | |- Wp.wp _ (definitionName _) _ _ => r_call definitionName_r
  | |- Wp.wp _ (functionDefinition _) _ _ => r_call function_r
  | |- Wp.wp _ (planDefinition _) _ _ => r_call plan_r
  end.
Lemma dotted_r lo q st ns p t s v c : Sr p t s v c -> VR lo q p t s v -> low lo -> lo <= st <= p -> wp (dotted_body rec st ns) c (post true lo p (fun p' a => within lo p' a /\ q <= eend a)).
Proof. intros HS HV HL HST. r_in. unfold dotted_body. r. r_mid false (fun (_ _ : Z) (_ : str) => True); [destruct t; try solve [y]; destruct v; y|]. y. Qed.
Lemma value_r lo q p t s v c (Q : expr -> ctx -> Prop) : Sr p t s v c -> VR lo q p t s v -> (forall e, within lo p e -> q <= eend e -> Q e c) -> wp value_expr c Q.
Proof. intros HS HV HQ. unfold value_expr. r. destruct v; try exact Logic.I. destruct HV as (_ & _ & _ & H1 & H2). r. apply HQ; assumption. Qed.
Ltac r_sub ::= lazymatch goal with
  | |- Wp.wp _ (handleKeyword _) _ _ => r_call handleKeyword_r
  | |- Wp.wp _ (argument _) _ _ => r_call argument_r
  | |- Wp.wp _ (keyedEntry _) _ _ => r_call keyedEntry_r
  | |- Wp.wp _ (selectorEntry _) _ _ => r_call selectorEntry_r
  | |- Wp.wp _ (identifier _) _ _ => eapply identifier_r; [eassumption|eassumption|eassumption|r_in|r_in]
  | |- Wp.wp _ (typeName _) _ _ => eapply typeName_r; [eassumption|eassumption|eassumption|r_in|r_in]
  | |- Wp.wp _ (arrayExpression _) _ _ => r_call arrayExpression_r
  | |- Wp.wp _ (parameterListOf _ PParameter) _ _ => r_call parameterList_r
  | |- Wp.wp _ (parameterList _) _ _ => r_call parameterList2_r
  | |- Wp.wp _ (lambdaParameterList _) _ _ => r_call lambdaParameterList_r
  | |- Wp.wp _ (optParameterType _) _ _ => r_call optParameterType_r
  | |- Wp.wp _ (parameterName _) _ _ => r_call parameterName_r
  | |- Wp.wp _ (parameter _) _ _ => r_call parameter_r
  | |- Wp.wp _ (produce _ _) _ _ => r_call produce_r
  | |- Wp.wp _ (syntacticStatement _) _ _ => r_call syntactic_r
  | |- Wp.wp _ (resource _) _ _ => r_call resource_r
  | |- Wp.wp _ (step _) _ _ => r_call step_r
  | |- Wp.wp _ (className _) _ _ => r_call className_r
  | |- Wp.wp _ (braces _) _ _ => r_call braces_r
  | |- Wp.wp _ (addDefinition _) _ _ => match goal with HL : low ?lo, HS : RngBase.Sr _ _ ?p _ _ _ ?c |- Wp.wp _ _ ?c _ => eapply r_add with (lo := lo) (hi := p); [exact HS|try solve [s1]|lia|lia|r_in] end
  | |- Wp.wp _ (capabilityMapping _ _ _) _ _ => r_call capabilityMapping_r
  | |- Wp.wp _ (selectorsExpression _ _) _ _ => r_call selectors_r
  | |- Wp.wp _ (level_operand _ _) _ _ => r_call level_operand_r
  | |- Wp.wp _ (unary_node _ _ _ _) _ _ => r_call unary_node_r
  | |- Wp.wp _ (signed_number _ _) _ _ => r_call signed_r
  | |- Wp.wp _ (collectQuery _) _ _ => r_call collectQuery_r
  | |- Wp.wp _ (collectExpression _ _) _ _ => r_call collect_r
  | |- Wp.wp _ (optReturnType _) _ _ => r_call optReturnType_r
  | |- Wp.wp _ (lambda _) _ _ => r_call lambda_r
  | |- Wp.wp _ (caseOption _) _ _ => r_call caseOption_r
  | |- Wp.wp _ (caseExpression _) _ _ => r_call case_r
  | |- Wp.wp _ (attributeOperation _) _ _ => r_call attributeOperation_r
  | |- Wp.wp _ (resourceBody _ _) _ _ => r_call resourceBody_r
  | |- Wp.wp _ (resourceShape _) _ _ => match goal with HL : low ?lo, HS : RngBase.Sr _ _ _ _ _ _ ?c, HW : within _ _ ?e |- Wp.wp _ (resourceShape ?e) ?c _ => eapply shape_r; [exact HS|exact HW|lia|lia|r_in] end
  | |- Wp.wp _ (alias_body _) _ _ => r_call alias_r
  | |- Wp.wp _ (typeAliasOrDefinition _) _ _ => r_call typeAlias_r
  | |- Wp.wp _ (optParameterList _) _ _ => r_call optParameterList_r
  | |- Wp.wp _ (definitionName _) _ _ => r_call definitionName_r
  | |- Wp.wp _ (functionDefinition _) _ _ => r_call function_r
  | |- Wp.wp _ (planDefinition _) _ _ => r_call plan_r
  | |- Wp.wp _ (value_expr) _ _ => eapply value_r; [eassumption|eassumption|r_in]
  end.
Lemma hostname_r lo q  p t s v c : Sr p t s v c -> VR lo q p t s v -> low lo ->  wp (hostname rec) c (post true lo p (fun p' a => within lo p' a /\ q <= eend a)).
Proof. intros HS HV HL. r_in. unfold hostname. y. Qed.
Ltac r_sub ::= lazymatch goal with
  | |- Wp.wp _ (handleKeyword _) _ _ => r_call handleKeyword_r
  | |- Wp.wp _ (argument _) _ _ => r_call argument_r
  | |- Wp.wp _ (keyedEntry _) _ _ => r_call keyedEntry_r
  | |- Wp.wp _ (selectorEntry _) _ _ => r_call selectorEntry_r
  | |- Wp.wp _ (identifier _) _ _ => eapply identifier_r; [eassumption|eassumption|eassumption|r_in|r_in]
  | |- Wp.wp _ (typeName _) _ _ => eapply typeName_r; [eassumption|eassumption|eassumption|r_in|r_in]
  | |- Wp.wp _ (arrayExpression _) _ _ => r_call arrayExpression_r
  | |- Wp.wp _ (parameterListOf _ PParameter) _ _ => r_call parameterList_r
  | |- Wp.wp _ (parameterList _) _ _ => r_call parameterList2_r
  | |- Wp.wp _ (lambdaParameterList _) _ _ => r_call lambdaParameterList_r
  | |- Wp.wp _ (optParameterType _) _ _ => r_call optParameterType_r
  | |- Wp.wp _ (parameterName _) _ _ => r_call parameterName_r
  | |- Wp.wp _ (parameter _) _ _ => r_call parameter_r
  | |- Wp.wp _ (produce _ _) _ _ => r_call produce_r
  | |- Wp.wp _ (syntacticStatement _) _ _ => r_call syntactic_r
  | |- Wp.wp _ (resource _) _ _ => r_call resource_r
  | |- Wp.wp _ (step _) _ _ => r_call step_r
  | |- Wp.wp _ (className _) _ _ => r_call className_r
  | |- Wp.wp _ (braces _) _ _ => r_call braces_r
  | |- Wp.wp _ (addDefinition _) _ _ => match goal with HL : low ?lo, HS : RngBase.Sr _ _ ?p _ _ _ ?c |- Wp.wp _ _ ?c _ => eapply r_add with (lo := lo) (hi := p); [exact HS|try solve [s1]|lia|lia|r_in] end
  | |- Wp.wp _ (capabilityMapping _ _ _) _ _ => r_call capabilityMapping_r
  | |- Wp.wp _ (selectorsExpression _ _) _ _ => r_call selectors_r
  | |- Wp.wp _ (level_operand _ _) _ _ => r_call level_operand_r
  | |- Wp.wp _ (unary_node _ _ _ _) _ _ => r_call unary_node_r
  | |- Wp.wp _ (signed_number _ _) _ _ => r_call signed_r
  | |- Wp.wp _ (collectQuery _) _ _ => r_call collectQuery_r
  | |- Wp.wp _ (collectExpression _ _) _ _ => r_call collect_r
  | |- Wp.wp _ (optReturnType _) _ _ => r_call optReturnType_r
  | |- Wp.wp _ (lambda _) _ _ => r_call lambda_r
  | |- Wp.wp _ (caseOption _) _ _ => r_call caseOption_r
  | |- Wp.wp _ (caseExpression _) _ _ => r_call case_r
  | |- Wp.wp _ (attributeOperation _) _ _ => r_call attributeOperation_r
  | |- Wp.wp _ (resourceBody _ _) _ _ => r_call resourceBody_r
  | |- Wp.wp _ (resourceShape _) _ _ => match goal with HL : low ?lo, HS : RngBase.Sr _ _ _ _ _ _ ?c, HW : within _ _ ?e |- Wp.wp _ (resourceShape ?e) ?c _ => eapply shape_r; [exact HS|exact HW|lia|lia|r_in] end
  | |- Wp.wp _ (alias_body _) _ _ => r_call alias_r
  | |- Wp.wp _ (typeAliasOrDefinition _) _ _ => r_call typeAlias_r
  | |- Wp.wp _ (optParameterList _) _ _ => r_call optParameterList_r
  | |- Wp.wp _ (definitionName _) _ _ => r_call definitionName_r
  | |- Wp.wp _ (functionDefinition _) _ _ => r_call function_r
  | |- Wp.wp _ (planDefinition _) _ _ => r_call plan_r
  | |- Wp.wp _ (value_expr) _ _ => eapply value_r; [eassumption|eassumption|r_in]
  | |- Wp.wp _ (hostname _) _ _ => r_call hostname_r
  end.
Lemma hostnames_r lo  acc p t s v c : Sr p t s v c -> VR lo p p t s v -> low lo -> Forall (within lo p) acc -> wp (hostnames_body rec acc) c (post true lo p (fun p' a => Forall (within lo p') a)).
Proof. intros HS HV HL HC. r_in. unfold hostnames_body. y. Qed.
Lemma node_r lo q  p t s v c : Sr p t s v c -> VR lo q p t s v -> low lo ->  wp (nodeDefinition rec) c (post true lo p (fun p' a => within lo p' a /\ q <= eend a)).
Proof. intros HS HV HL. r_in. unfold nodeDefinition. r. r_mid true (fun lo p' a => owithin lo p' a); y. Qed.
Ltac r_sub ::= lazymatch goal with
  | |- Wp.wp _ (handleKeyword _) _ _ => r_call handleKeyword_r
  | |- Wp.wp _ (argument _) _ _ => r_call argument_r
  | |- Wp.wp _ (keyedEntry _) _ _ => r_call keyedEntry_r
  | |- Wp.wp _ (selectorEntry _) _ _ => r_call selectorEntry_r
  | |- Wp.wp _ (identifier _) _ _ => eapply identifier_r; [eassumption|eassumption|eassumption|r_in|r_in]
  | |- Wp.wp _ (typeName _) _ _ => eapply typeName_r; [eassumption|eassumption|eassumption|r_in|r_in]
  | |- Wp.wp _ (arrayExpression _) _ _ => r_call arrayExpression_r
  | |- Wp.wp _ (parameterListOf _ PParameter) _ _ => r_call parameterList_r
  | |- Wp.wp _ (parameterList _) _ _ => r_call parameterList2_r
  | |- Wp.wp _ (lambdaParameterList _) _ _ => r_call lambdaParameterList_r
  | |- Wp.wp _ (optParameterType _) _ _ => r_call optParameterType_r
  | |- Wp.wp _ (parameterName _) _ _ => r_call parameterName_r
  | |- Wp.wp _ (parameter _) _ _ => r_call parameter_r
  | |- Wp.wp _ (produce _ _) _ _ => r_call produce_r
  | |- Wp.wp _ (syntacticStatement _) _ _ => r_call syntactic_r
  | |- Wp.wp _ (resource _) _ _ => r_call resource_r
  | |- Wp.wp _ (step _) _ _ => r_call step_r
  | |- Wp.wp _ (className _) _ _ => r_call className_r
  | |- Wp.wp _ (braces _) _ _ => r_call braces_r
  | |- Wp.wp _ (addDefinition _) _ _ => match goal with HL : low ?lo, HS : RngBase.Sr _ _ ?p _ _ _ ?c |- Wp.wp _ _ ?c _ => eapply r_add with (lo := lo) (hi := p); [exact HS|try solve [s1]|lia|lia|r_in] end
  | |- Wp.wp _ (capabilityMapping _ _ _) _ _ => r_call capabilityMapping_r
  | |- Wp.wp _ (selectorsExpression _ _) _ _ => r_call selectors_r
  | |- Wp.wp _ (level_operand _ _) _ _ => r_call level_operand_r
  | |- Wp.wp _ (unary_node _ _ _ _) _ _ => r_call unary_node_r
  | |- Wp.wp _ (signed_number _ _) _ _ => r_call signed_r
  | |- Wp.wp _ (collectQuery _) _ _ => r_call collectQuery_r
  | |- Wp.wp _ (collectExpression _ _) _ _ => r_call collect_r
  | |- Wp.wp _ (optReturnType _) _ _ => r_call optReturnType_r
  | |- Wp.wp _ (lambda _) _ _ => r_call lambda_r
  | |- Wp.wp _ (caseOption _) _ _ => r_call caseOption_r
  | |- Wp.wp _ (caseExpression _) _ _ => r_call case_r
  | |- Wp.wp _ (attributeOperation _) _ _ => r_call attributeOperation_r
  | |- Wp.wp _ (resourceBody _ _) _ _ => r_call resourceBody_r
  | |- Wp.wp _ (resourceShape _) _ _ => match goal with HL : low ?lo, HS : RngBase.Sr _ _ _ _ _ _ ?c, HW : within _ _ ?e |- Wp.wp _ (resourceShape ?e) ?c _ => eapply shape_r; [exact HS|exact HW|lia|lia|r_in] end
  | |- Wp.wp _ (alias_body _) _ _ => r_call alias_r
  | |- Wp.wp _ (typeAliasOrDefinition _) _ _ => r_call typeAlias_r
  | |- Wp.wp _ (optParameterList _) _ _ => r_call optParameterList_r
  | |- Wp.wp _ (definitionName _) _ _ => r_call definitionName_r
  | |- Wp.wp _ (functionDefinition _) _ _ => r_call function_r
  | |- Wp.wp _ (planDefinition _) _ _ => r_call plan_r
  | |- Wp.wp _ (value_expr) _ _ => eapply value_r; [eassumption|eassumption|r_in]
  | |- Wp.wp _ (hostname _) _ _ => r_call hostname_r
  | |- Wp.wp _ (nodeDefinition _) _ _ => r_call node_r
  end.
Lemma class_r lo  st p t s v c : Sr p t s v c -> VR lo p p t s v -> low lo -> lo <= st <= p -> wp (classExpression rec st) c (post true lo p (fun p' a => within lo p' a /\ p <= eend a)).
Proof. intros HS HV HL HST. r_in. unfold classExpression. cbv zeta. r. r_mid true (fun (_ _ : Z) (_ : str) => True); [y|]. y. Qed.
Ltac r_sub ::= lazymatch goal with
  | |- Wp.wp _ (handleKeyword _) _ _ => r_call handleKeyword_r
  | |- Wp.wp _ (argument _) _ _ => r_call argument_r
  | |- Wp.wp _ (keyedEntry _) _ _ => r_call keyedEntry_r
  | |- Wp.wp _ (selectorEntry _) _ _ => r_call selectorEntry_r
  | |- Wp.wp _ (identifier _) _ _ => eapply identifier_r; [eassumption|eassumption|eassumption|r_in|r_in]
  | |- Wp.wp _ (typeName _) _ _ => eapply typeName_r; [eassumption|eassumption|eassumption|r_in|r_in]
  | |- Wp.wp _ (arrayExpression _) _ _ => r_call arrayExpression_r
  | |- Wp.wp _ (parameterListOf _ PParameter) _ _ => r_call parameterList_r
  | |- Wp.wp _ (parameterList _) _ _ => r_call parameterList2_r
  | |- Wp.wp _ (lambdaParameterList _) _ _ => r_call lambdaParameterList_r
  | |- Wp.wp _ (optParameterType _) _ _ => r_call optParameterType_r
  | |- Wp.wp _ (parameterName _) _ _ => r_call parameterName_r
  | |- Wp.wp _ (parameter _) _ _ => r_call parameter_r
  | |- Wp.wp _ (produce _ _) _ _ => r_call produce_r
  | |- Wp.wp _ (syntacticStatement _) _ _ => r_call syntactic_r
  | |- Wp.wp _ (resource _) _ _ => r_call resource_r
  | |- Wp.wp _ (step _) _ _ => r_call step_r
  | |- Wp.wp _ (className _) _ _ => r_call className_r
  | |- Wp.wp _ (braces _) _ _ => r_call braces_r
  | |- Wp.wp _ (addDefinition _) _ _ => match goal with HL : low ?lo, HS : RngBase.Sr _ _ ?p _ _ _ ?c |- Wp.wp _ _ ?c _ => eapply r_add with (lo := lo) (hi := p); [exact HS|try solve [s1]|lia|lia|r_in] end
  | |- Wp.wp _ (capabilityMapping _ _ _) _ _ => r_call capabilityMapping_r
  | |- Wp.wp _ (selectorsExpression _ _) _ _ => r_call selectors_r
  | |- Wp.wp _ (level_operand _ _) _ _ => r_call level_operand_r
  | |- Wp.wp _ (unary_node _ _ _ _) _ _ => r_call unary_node_r
  | |- Wp.wp _ (signed_number _ _) _ _ => r_call signed_r
  | |- Wp.wp _ (collectQuery _) _ _ => r_call collectQuery_r
  | |- Wp.wp _ (collectExpression _ _) _ _ => r_call collect_r
  | |- Wp.wp _ (optReturnType _) _ _ => r_call optReturnType_r
  | |- Wp.wp _ (lambda _) _ _ => r_call lambda_r
  | |- Wp.wp _ (caseOption _) _ _ => r_call caseOption_r
  | |- Wp.wp _ (caseExpression _) _ _ => r_call case_r
  | |- Wp.wp _ (attributeOperation _) _ _ => r_call attributeOperation_r
  | |- Wp.wp _ (resourceBody _ _) _ _ => r_call resourceBody_r
  | |- Wp.wp _ (resourceShape _) _ _ => match goal with HL : low ?lo, HS : RngBase.Sr _ _ _ _ _ _ ?c, HW : within _ _ ?e |- Wp.wp _ (resourceShape ?e) ?c _ => eapply shape_r; [exact HS|exact HW|lia|lia|r_in] end
  | |- Wp.wp _ (alias_body _) _ _ => r_call alias_r
  | |- Wp.wp _ (typeAliasOrDefinition _) _ _ => r_call typeAlias_r
  | |- Wp.wp _ (optParameterList _) _ _ => r_call optParameterList_r
  | |- Wp.wp _ (definitionName _) _ _ => r_call definitionName_r
  | |- Wp.wp _ (functionDefinition _) _ _ => r_call function_r
  | |- Wp.wp _ (planDefinition _) _ _ => r_call plan_r
  | |- Wp.wp _ (value_expr) _ _ => eapply value_r; [eassumption|eassumption|r_in]
  | |- Wp.wp _ (hostname _) _ _ => r_call hostname_r
  | |- Wp.wp _ (nodeDefinition _) _ _ => r_call node_r
  | |- Wp.wp _ (classExpression _ _) _ _ => r_call class_r
  end.
Lemma site_r lo q  p t s v c : Sr p t s v c -> VR lo q p t s v -> low lo ->  wp (siteDefinition rec) c (post true lo p (fun p' a => within lo p' a /\ q <= eend a)).
Proof. intros HS HV HL. r_in. unfold siteDefinition. y. Qed.
Ltac r_sub ::= lazymatch goal with
  | |- Wp.wp _ (handleKeyword _) _ _ => r_call handleKeyword_r
  | |- Wp.wp _ (argument _) _ _ => r_call argument_r
  | |- Wp.wp _ (keyedEntry _) _ _ => r_call keyedEntry_r
  | |- Wp.wp _ (selectorEntry _) _ _ => r_call selectorEntry_r
  | |- Wp.wp _ (identifier _) _ _ => eapply identifier_r; [eassumption|eassumption|eassumption|r_in|r_in]
  | |- Wp.wp _ (typeName _) _ _ => eapply typeName_r; [eassumption|eassumption|eassumption|r_in|r_in]
  | |- Wp.wp _ (arrayExpression _) _ _ => r_call arrayExpression_r
  | |- Wp.wp _ (parameterListOf _ PParameter) _ _ => r_call parameterList_r
  | |- Wp.wp _ (parameterList _) _ _ => r_call parameterList2_r
  | |- Wp.wp _ (lambdaParameterList _) _ _ => r_call lambdaParameterList_r
  | |- Wp.wp _ (optParameterType _) _ _ => r_call optParameterType_r
  | |- Wp.wp _ (parameterName _) _ _ => r_call parameterName_r
  | |- Wp.wp _ (parameter _) _ _ => r_call parameter_r
  | |- Wp.wp _ (produce _ _) _ _ => r_call produce_r
  | |- Wp.wp _ (syntacticStatement _) _ _ => r_call syntactic_r
  | |- Wp.wp _ (resource _) _ _ => r_call resource_r
  | |- Wp.wp _ (step _) _ _ => r_call step_r
  | |- Wp.wp _ (className _) _ _ => r_call className_r
  | |- Wp.wp _ (braces _) _ _ => r_call braces_r
  | |- Wp.wp _ (addDefinition _) _ _ => match goal with HL : low ?lo, HS : RngBase.Sr _ _ ?p _ _ _ ?c |- Wp.wp _ _ ?c _ => eapply r_add with (lo := lo) (hi := p); [exact HS|try solve [s1]|lia|lia|r_in] end
  | |- Wp.wp _ (capabilityMapping _ _ _) _ _ => r_call capabilityMapping_r
  | |- Wp.wp _ (selectorsExpression _ _) _ _ => r_call selectors_r
  | |- Wp.wp _ (level_operand _ _) _ _ => r_call level_operand_r
  | |- Wp.wp _ (unary_node _ _ _ _) _ _ => r_call unary_node_r
  | |- Wp.wp _ (signed_number _ _) _ _ => r_call signed_r
  | |- Wp.wp _ (collectQuery _) _ _ => r_call collectQuery_r
  | |- Wp.wp _ (collectExpression _ _) _ _ => r_call collect_r
  | |- Wp.wp _ (optReturnType _) _ _ => r_call optReturnType_r
  | |- Wp.wp _ (lambda _) _ _ => r_call lambda_r
  | |- Wp.wp _ (caseOption _) _ _ => r_call caseOption_r
  | |- Wp.wp _ (caseExpression _) _ _ => r_call case_r
  | |- Wp.wp _ (attributeOperation _) _ _ => r_call attributeOperation_r
  | |- Wp.wp _ (resourceBody _ _) _ _ => r_call resourceBody_r
  | |- Wp.wp _ (resourceShape _) _ _ => match goal with HL : low ?lo, HS : RngBase.Sr _ _ _ _ _ _ ?c, HW : within _ _ ?e |- Wp.wp _ (resourceShape ?e) ?c _ => eapply shape_r; [exact HS|exact HW|lia|lia|r_in] end
  | |- Wp.wp _ (alias_body _) _ _ => r_call alias_r
  | |- Wp.wp _ (typeAliasOrDefinition _) _ _ => r_call typeAlias_r
  | |- Wp.wp _ (optParameterList _) _ _ => r_call optParameterList_r
  | |- Wp.wp _ (definitionName _) _ _ => r_call definitionName_r
  | |- Wp.wp _ (functionDefinition _) _ _ => r_call function_r
  | |- Wp.wp _ (planDefinition _) _ _ => r_call plan_r
  | |- Wp.wp _ (value_expr) _ _ => eapply value_r; [eassumption|eassumption|r_in]
  | |- Wp.wp _ (hostname _) _ _ => r_call hostname_r
  | |- Wp.wp _ (nodeDefinition _) _ _ => r_call node_r
  | |- Wp.wp _ (classExpression _ _) _ _ => r_call class_r
  | |- Wp.wp _ (siteDefinition _) _ _ => r_call site_r
  end.
Lemma resourceDefinition_r lo q k p t s v c : Sr p t s v c -> VR lo q p t s v -> low lo ->  wp (resourceDefinition rec k) c (post true lo p (fun p' a => within lo p' a /\ q <= eend a)).
Proof. intros HS HV HL. r_in. unfold resourceDefinition. y. Qed.
Ltac r_sub ::= lazymatch goal with
  | |- Wp.wp _ (handleKeyword _) _ _ => r_call handleKeyword_r
  | |- Wp.wp _ (argument _) _ _ => r_call argument_r
  | |- Wp.wp _ (keyedEntry _) _ _ => r_call keyedEntry_r
  | |- Wp.wp _ (selectorEntry _) _ _ => r_call selectorEntry_r
  | |- Wp.wp _ (identifier _) _ _ => eapply identifier_r; [eassumption|eassumption|eassumption|r_in|r_in]
  | |- Wp.wp _ (typeName _) _ _ => eapply typeName_r; [eassumption|eassumption|eassumption|r_in|r_in]
  | |- Wp.wp _ (arrayExpression _) _ _ => r_call arrayExpression_r
  | |- Wp.wp _ (parameterListOf _ PParameter) _ _ => r_call parameterList_r
  | |- Wp.wp _ (parameterList _) _ _ => r_call parameterList2_r
  | |- Wp.wp _ (lambdaParameterList _) _ _ => r_call lambdaParameterList_r
  | |- Wp.wp _ (optParameterType _) _ _ => r_call optParameterType_r
  | |- Wp.wp _ (parameterName _) _ _ => r_call parameterName_r
  | |- Wp.wp _ (parameter _) _ _ => r_call parameter_r
  | |- Wp.wp _ (produce _ _) _ _ => r_call produce_r
  | |- Wp.wp _ (syntacticStatement _) _ _ => r_call syntactic_r
  | |- Wp.wp _ (resource _) _ _ => r_call resource_r
  | |- Wp.wp _ (step _) _ _ => r_call step_r
  | |- Wp.wp _ (className _) _ _ => r_call className_r
  | |- Wp.wp _ (braces _) _ _ => r_call braces_r
  | |- Wp.wp _ (addDefinition _) _ _ => match goal with HL : low ?lo, HS : RngBase.Sr _ _ ?p _ _ _ ?c |- Wp.wp _ _ ?c _ => eapply r_add with (lo := lo) (hi := p); [exact HS|try solve [s1]|lia|lia|r_in] end
  | |- Wp.wp _ (capabilityMapping _ _ _) _ _ => r_call capabilityMapping_r
  | |- Wp.wp _ (selectorsExpression _ _) _ _ => r_call selectors_r
  | |- Wp.wp _ (level_operand _ _) _ _ => r_call level_operand_r
  | |- Wp.wp _ (unary_node _ _ _ _) _ _ => r_call unary_node_r
  | |- Wp.wp _ (signed_number _ _) _ _ => r_call signed_r
  | |- Wp.wp _ (collectQuery _) _ _ => r_call collectQuery_r
  | |- Wp.wp _ (collectExpression _ _) _ _ => r_call collect_r
  | |- Wp.wp _ (optReturnType _) _ _ => r_call optReturnType_r
  | |- Wp.wp _ (lambda _) _ _ => r_call lambda_r
  | |- Wp.wp _ (caseOption _) _ _ => r_call caseOption_r
  | |- Wp.wp _ (caseExpression _) _ _ => r_call case_r
  | |- Wp.wp _ (attributeOperation _) _ _ => r_call attributeOperation_r
  | |- Wp.wp _ (resourceBody _ _) _ _ => r_call resourceBody_r
  | |- Wp.wp _ (resourceShape _) _ _ => match goal with HL : low ?lo, HS : RngBase.Sr _ _ _ _ _ _ ?c, HW : within _ _ ?e |- Wp.wp _ (resourceShape ?e) ?c _ => eapply shape_r; [exact HS|exact HW|lia|lia|r_in] end
  | |- Wp.wp _ (alias_body _) _ _ => r_call alias_r
  | |- Wp.wp _ (typeAliasOrDefinition _) _ _ => r_call typeAlias_r
  | |- Wp.wp _ (optParameterList _) _ _ => r_call optParameterList_r
  | |- Wp.wp _ (definitionName _) _ _ => r_call definitionName_r
  | |- Wp.wp _ (functionDefinition _) _ _ => r_call function_r
  | |- Wp.wp _ (planDefinition _) _ _ => r_call plan_r
  | |- Wp.wp _ (value_expr) _ _ => eapply value_r; [eassumption|eassumption|r_in]
  | |- Wp.wp _ (hostname _) _ _ => r_call hostname_r
  | |- Wp.wp _ (nodeDefinition _) _ _ => r_call node_r
  | |- Wp.wp _ (classExpression _ _) _ _ => r_call class_r
  | |- Wp.wp _ (siteDefinition _) _ _ => r_call site_r
  | |- Wp.wp _ (resourceDefinition _ _) _ _ => r_call resourceDefinition_r
  end.
Lemma leaf_r lo q p t s v c st mk : Sr p t s v c -> VR lo q p t s v -> low lo -> lo <= st <= p ->
  (forall pp, spanned lo p (EUndef pp) -> wp (mk pp) c (fun a c' => c' = c /\ epos a = pp /\ children a = [])) ->
  wp (leaf rec st mk) c (post true lo p (fun p' a => within lo p' a /\ q <= eend a)).
Proof.
  intros HS HV HL HST HM. r_in. unfold leaf. r. eapply wp_weaken; [apply HM; zn|]. intros a c' (-> & E1 & E2). r. r_fin.
  assert (X : eend a = p) by (unfold eend, byteOffset, byteLength; rewrite E1; cbn; lia).
  split; [|lia]. apply within_node; [unfold spanned, byteOffset, byteLength; rewrite X, E1; cbn; lia|]. rewrite E2. constructor.
Qed.
Lemma atom_r lo q p t s v c : Sr p t s v c -> VR lo q p t s v -> low lo -> wp (atom_body rec) c (post true lo p (fun p' a => within lo p' a /\ q <= eend a)).
Proof.
  intros HS HV HL. r_in. unfold atom_body. r.
  assert (LF : forall mk, (forall pp, wp (mk pp) c (fun a c' => c' = c /\ epos a = pp /\ children a = [])) -> wp (leaf rec s mk) c (post true lo p (fun p' a => within lo p' a /\ q <= eend a))).
  { intros mk HM. eapply leaf_r; [eassumption|eassumption|assumption|lia|intros; apply HM]. }
  destruct t; try exact Logic.I; try (apply LF; intros pp; repeat first [r1|r_case]; try exact Logic.I; split; [reflexivity|split; reflexivity]);
    lazymatch goal with X : RngBase.Sr _ _ _ TVariable _ _ _ |- _ => idtac | |- _ => solve [y] end.
  assert (HX : match v with VStr x => s + 1 + zlen x <= p /\ 0 <= zlen x | VInt _ => s + 1 <= p | _ => True end).
  { destruct HV as (_ & _ & _ & X). destruct v; auto. split; [auto|apply zlen_nn]. }
  destruct v; cbn iota in HX; y.
Qed.
Lemma asEpp_r p t s v c e : Sr p t s v c -> within 0 p e -> wp (asEppLambda e) c (fun a c' => Sr p t s v c' /\ within 0 p a).
Proof.
  intros HS HE. r_rng. assert (HL : low 0) by (unfold low; lia). unfold asEppLambda, eppLambda. r.
  assert (D : within 0 p (ELambda (mkpos 0 (p - 0)) [] (EEpp (mkpos 0 (p - 0)) true (EBlock (mkpos 0 (p - 0)) [e])) None)) by s_within.
  destruct e; try (r; split; [assumption|exact D]).
  - r. split; [assumption|]. s_within.
  - match goal with |- context [match ?b with EEpp _ _ _ => _ | _ => _ end] => destruct b end; r; (split; [assumption|first [exact D|exact HE]]).
Qed.
Lemma eppLoop_r q p t s v c acc : Sr p t s v c -> VR 0 q p t s v -> q = p -> chain 0 p acc -> wp (eppLoop_body rec acc) c (post false 0 p (fun p' a => within 0 p' a)).
Proof.
  intros HS HV -> HC. assert (HL : low 0) by (unfold low; lia). r_in. unfold eppLoop_body. r. r_case; [|y].
  r. eapply transform_r with (lo := 0); [eassumption|lia|eassumption|r_in]. r. eapply wp_weaken; [eapply asEpp_r; [eassumption|s_within]|].
  intros a c' (HS' & HW). exists p, t, s, v. split; [exact HS'|]. split; [lia|]. split; [discriminate|exact HW].
Qed.
End Rec.
