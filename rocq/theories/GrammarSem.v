(** * GrammarSem: what the parser's functions do on phrases of the grammar *)
From Verif Require Import Base Float Tokens Ast Ctx Locator Lexer Parser SpecLex LexBase GapProof LexTokens LexCur Evals Ends SpecGrammar GrammarBase GrammarFirst GrammarTree.
From Coq Require Import Lia ZifyBool.

(** the text of a type name that is indexed is its name *)
Definition anchored (text : str) (ks : list tk) (e : expr) : Prop :=
  match e with
  | EAccess _ (EQRef q n) _ => node_text text q = inl n
  | EQRef q n => tok_of ks = TLb -> node_text text q = inl n
  | _ => True
  end.
Definition level_of (n : nat) : level :=
  match n with 0 => LIn | 1 => LMatch | 2 => LMul | 3 => LAdd | 4 => LShift | 5 => LEqual | 6 => LCompare | 7 => LAnd | _ => LOr end%nat.

Section Sem.
Variables (o : opts) (m : mode).
Notation st := (st o m).

(** [F] parses the phrase [ts] of the tree [e] *)
Definition sem1 (pre : list tk -> Prop) (F : recT -> M expr) (ns : list str) (ts : list tk) (es : list expr) : Prop :=
  forall e, es = [e] -> forall c0 ds c rest, st c0 ds ns (ts ++ rest) c -> pre rest ->
  ends F c (fun e1 c1 => st c0 (ds ++ defs e) ns rest c1 /\ strip e1 = e /\ anchored (c_text c0) rest e1).
(** the same for lists, after the elements [acc] *)
Definition semL (pre : list tk -> Prop) (F : list expr -> recT -> M (list expr)) (ns : list str) (ts : list tk) (es : list expr) : Prop :=
  forall acc c0 ds c rest, st c0 ds ns (ts ++ rest) c -> pre rest ->
  ends (F acc) c (fun l c1 => st c0 (ds ++ flat_map defs es) ns rest c1 /\ exists l1, l = acc ++ l1 /\ map strip l1 = es).
(** the same for the loops of left recursive phrases *)
Definition semC (pre : list tk -> expr -> Prop) (F : recT -> M expr) (L : expr -> recT -> M expr) (ns : list str) (ts : list tk) (es : list expr) : Prop :=
  forall e, es = [e] -> forall c0 ds c rest Q, st c0 ds ns (ts ++ rest) c -> pre rest e ->
  (forall e1 c1, st c0 (ds ++ defs e) ns rest c1 -> strip e1 = e -> anchored (c_text c0) rest e1 -> ends (L e1) c1 Q) -> ends F c Q.
Definition semO (pre : list tk -> Prop) (F : recT -> M (option expr)) (ns : list str) (ts : list tk) (es : list expr) : Prop :=
  forall c0 ds c rest, st c0 ds ns (ts ++ rest) c -> pre rest ->
  ends F c (fun r c1 => st c0 (ds ++ flat_map defs es) ns rest c1 /\ option_map strip r = hd_error es).

(** parts of functions *)
Definition select_part (r : recT) : M expr := e <- r expr (FLevel LOr) ;; r expr (FSelectLoop e).
Definition args_part (r : recT) : M (list expr * Z) :=
  r unit FNextToken ;; es <- r (list expr) (FExpressions TRp PArgument []) ;; e <- getPos ;; r unit FNextToken ;; ret (joinHashEntries es, e).
Definition else_part (u : bool) (r : recT) : M expr :=
  cur <- curTok ;;
  match cur with
  | TElse => r unit FNextToken ;; braces r
  | TElsif => if u then issue PARSE_ELSIF_IN_UNLESS else r expr (FIf false)
  | _ => ts <- tokStart ;; ret (ENop (mkpos ts 0))
  end.
Definition default_part (r : recT) : M (option expr) :=
  cur <- curTok ;; if tok_eqb cur TAssign then r unit FNextToken ;; e <- r expr FExpression ;; ret (Some e) else ret None.
Definition parent_part (r : recT) : M (option expr) :=
  cur <- curTok ;; if tok_eqb cur TInherits then r unit FNextToken ;; h <- hostname r ;; ret (Some h) else ret None.
(** parts of steps *)
Definition alias_part (r : recT) : M (option expr) :=
  cur <- curTok ;;
  if tok_eqb cur TAssign then
    r unit FNextToken ;;
    cur <- curTok ;;
    match cur with
    | TLp | TWslp =>
      ps <- tokStart ;; r unit FNextToken ;; es <- r _ (FExpressions TRp PAttributeAlias []) ;;
      p <- ask (fun c => mkpos ps (ps - c_pos c)) ;; r unit FNextToken ;; ret (Some (EList p es))
    | _ => e <- attributeAlias r ;; ret (Some e)
    end
  else ret None.
Definition iter_part (name : str) (props : list expr) (r : recT) : M (list expr) :=
  cur <- curTok ;;
  iterName <- (if tok_eqb cur TVariable then
                 n <- tokenString ;; r unit FNextToken ;; assertToken TAssign ;; r unit FNextToken ;; assertToken TIdentifier ;; ret n
               else ret name) ;;
  cur <- curTok ;;
  if tok_eqb cur TIdentifier then
    s <- tokenString ;;
    if mem_str s [lit "times"; lit "range"; lit "each"] then it <- iterator r iterName ;; ret (props ++ [it])
    else issue2 PARSE_EXPECTED_ITERATOR_STYLE [("style"%string, s)]
  else ret props.
Definition body_part (s : style) (start : Z) (r : recT) : M (option expr) :=
  cur <- curTok ;;
  match s with
  | SWorkflow =>
    if tok_eqb cur TLc then
      hstart <- tokStart ;; r unit FNextToken ;; acts <- r _ (FActivities []) ;; p <- span hstart ;;
      ret (match acts with [] => None | _ => Some (EBlock p acts) end)
    else ret None
  | SResource =>
    if tok_eqb cur TLc then
      r unit FNextToken ;; es <- r _ (FExpressions TRc PStateAttribute []) ;;
      let entries := map convertToDeferred es in
      p <- span start ;; r unit FNextToken ;;
      ret (match entries with [] => None | _ => Some (EHash p entries) end)
    else ret None
  | SAction | SStateHandler => b <- braces r ;; ret (Some b)
  end.
Definition sem_step (s : style) (n : str) (ns : list str) (ts : list tk) (es : list expr) : Prop :=
  forall e, es = [e] -> forall start top c0 ds c rest, st c0 ds ns (ts ++ rest) c ->
  ends (fun r => r expr (FStepDecl start s n top)) c (fun e1 c1 => st c0 (ds ++ (if top : bool then defs e else inner_defs defs e)) ns rest c1 /\ strip e1 = e).
Definition sem_step_body (s : style) (ns : list str) (ts : list tk) (es : list expr) : Prop :=
  forall start c0 ds c rest, st c0 ds ns (ts ++ rest) c ->
  ends (body_part s start) c (fun r c1 => st c0 (ds ++ step_defs defs s (hd_error es)) ns rest c1 /\ option_map strip r = hd_error es).
Definition sem_steps (ns : list str) (ts : list tk) (es : list expr) : Prop :=
  forall acc c0 ds c k rest, st c0 ds ns (ts ++ k :: rest) c -> is TRc k ->
  ends (fun r => r _ (FActivities acc)) c (fun l c1 => st c0 (ds ++ flat_map (inner_defs defs) es) ns rest c1 /\ exists l1, l = acc ++ l1 /\ map strip l1 = es).
Definition closing (t : tok) : Prop := In t [TRp; TRb; TRc; TPipeEnd; TColon].
Definition closed (ks : list tk) : Prop := tok_of ks = TComma \/ closing (tok_of ks) \/ tok_of ks = TSemicolon.
Definition listed (p : producer) : list str -> list tk -> list expr -> Prop := fun ns ts es =>
  forall term, closing term -> semL (fun rest => tok_of rest = term) (fun acc r => r _ (FExpressions term p acc)) ns ts es.
Definition sem_bodies (ns : list str) (ts : list tk) (es : list expr) : Prop :=
  forall c0 ds c rest, st c0 ds ns (ts ++ rest) c -> tok_of rest = TRc ->
  ends (fun r => r expr FExpression) c (fun t1 c1 => c_tok c1 = TColon /\ forall acc, ends (fun r => r _ (FBodies (Some t1) acc)) c1
    (fun l c2 => st c0 (ds ++ flat_map defs es) ns rest c2 /\ exists l1, l = acc ++ l1 /\ map strip l1 = es)).
Definition sem_block (ns : list str) (ts : list tk) (es : list expr) : Prop :=
  forall e, es = [e] -> (exists out, e = EBlock z out) /\ exists k1 ts1 k2, ts = k1 :: ts1 ++ [k2] /\ is TLc k1 /\ is TRc k2 /\
  forall c0 ds c rest, st c0 ds ns (ts1 ++ k2 :: rest) c -> curp o m (Some TLc) ns (ts1 ++ k2 :: rest) c ->
  ends (fun r => r expr (FParse TRc false)) c (fun e1 c1 => st c0 (ds ++ defs e) ns (k2 :: rest) c1 /\ strip e1 = e).
Definition sem_dotted (ns : list str) (ts : list tk) (es : list expr) : Prop :=
  forall s, es = [EString z s] -> forall start names c0 ds c rest, st c0 ds ns (ts ++ rest) c -> tok_of rest <> TDot ->
  ends (fun r => r expr (FDotted start names)) c (fun e1 c1 => st c0 ds ns rest c1 /\ strip e1 = EString z (join (lit ".") (names ++ [s]))).
Definition sem_args (ns : list str) (ts : list tk) (es : list expr) : Prop :=
  forall c0 ds c rest, st c0 ds ns (ts ++ rest) c -> ends args_part c (fun p c1 => st c0 (ds ++ flat_map defs es) ns rest c1 /\ map strip (fst p) = es).
Definition anything (_ : list tk) : Prop := True.

Definition sem (n : nt) (ns : list str) (ts : list tk) (es : list expr) : Prop :=
  match n with
  | Atom => sem1 (apart 0) (fun r => r expr FAtom) ns ts es
  | Chain => semC (fun rest e => apart 0 rest /\ (tok_of rest = TPipe -> complete e)) (fun r => r expr FPrimary) (fun e r => r expr (FPrimaryLoop e)) ns ts es
  | Primary => sem1 (apart 1) (fun r => r expr FPrimary) ns ts es
  | Unary | Op 0 => sem1 (apart 1) (fun r => r expr FUnary) ns ts es
  | Op (S n) => semC (fun rest _ => apart (S n) rest) (fun r => r expr (FLevel (level_of n))) (fun e r => r expr (FLevelLoop (level_of n) e)) ns ts es
  | Select => semC (fun rest _ => apart 10 rest) select_part (fun e r => r expr (FSelectLoop e)) ns ts es
  | Expression => sem1 (apart 12) (fun r => r expr FExpression) ns ts es
  | Resource => sem1 (apart 13) (fun r => step r) ns ts es
  | Assign => sem1 (apart 14) (fun r => r expr FAssignment) ns ts es
  | Rel => semC (fun rest _ => apart 14 rest) (fun r => r expr FRelationship) (fun e r => r expr (FRelLoop e)) ns ts es
  | Stmt => sem1 (apart 16) (fun r => syntacticStatement r) ns ts es
  | Rels => semL (apart 16) (fun acc r => r _ (FCommas acc)) ns ts es
  | Stmts => forall term, term = TRc \/ term = TEnd /\ embedded m = false -> semL (fun rest => tok_of rest = term) (fun acc r => r _ (FStatements term acc)) ns ts es
  | Block => sem_block ns ts es
  | ListOf Arg => listed PArgument ns ts es
  | ListOf Entry => listed PKeyedEntry ns ts es
  | ListOf SelEntry => listed PSelectorEntry ns ts es
  | ListOf Expression => listed PExpression ns ts es
  | ListOf Param => listed PParameter ns ts es
  | ListOf AttrOp => semL (fun rest => tok_of rest = TSemicolon \/ tok_of rest = TRc) (fun acc r => r _ (FAttrOps acc)) ns ts es
  | ListOf StepProp => listed PStepProperty ns ts es
  | ListOf StateAttr => listed PStateAttribute ns ts es
  | ListOf ReturnParam => listed PReturnParameter ns ts es
  | ListOf Alias => listed PAttributeAlias ns ts es
  | ListOf _ => True
  | StepOf s n => sem_step s n ns ts es
  | StepBody s => sem_step_body s ns ts es
  | Steps => sem_steps ns ts es
  | Iteration n => semL (fun rest => tok_of rest = TLc) (iter_part n) ns ts es
  | StepProp => sem1 closed (fun r => stepProperty r) ns ts es
  | StateAttr => sem1 closed (fun r => stateAttribute r) ns ts es
  | ReturnParam => sem1 closed (fun r => returnParameter r) ns ts es
  | Alias => sem1 anything (fun r => attributeAlias r) ns ts es
  | OptAlias => semO closed alias_part ns ts es
  | Handle => sem1 (apart 15) (fun r => handleKeyword r) ns ts es
  | Arg => sem1 closed (fun r => argument r) ns ts es
  | Entry => sem1 closed (fun r => argument r) ns ts es /\ sem1 closed (fun r => keyedEntry r) ns ts es
  | SelEntry => sem1 (apart 12) (fun r => selectorEntry r) ns ts es
  | Param => sem1 closed (fun r => parameter r) ns ts es
  | AttrOp => sem1 (apart 12) (fun r => attributeOperation r) ns ts es
  | OptType => semO (fun rest => tok_of rest = TMultiply \/ tok_of rest = TVariable) (fun r => optParameterType r) ns ts es
  | OptDefault => semO closed default_part ns ts es
  | OptParams => forall c0 ds c rest, st c0 ds ns (ts ++ rest) c -> apart 1 rest -> tok_of rest <> TWslp ->
      ends (fun r => optParameterList r) c (fun l c1 => st c0 (ds ++ flat_map defs es) ns rest c1 /\ map strip l = es)
  | OptReturn => semO (fun rest => tok_of rest = TLc) (fun r => optReturnType r) ns ts es
  | Lambda => sem1 anything (fun r => lambda r) ns ts es
  | OptLambda => ts = [] /\ es = [] \/ exists e, es = [e] /\ tok_of ts = TPipe /\ ts <> [] /\ sem1 anything (fun r => lambda r) ns ts es
  | TypeRef => forall e, es = [e] -> forall c0 ds c rest, st c0 ds ns (ts ++ rest) c -> apart 1 rest ->
      ends (fun r => r expr FParameterType) c (fun e1 c1 => st c0 (ds ++ defs e) ns rest c1 /\ strip e1 = e)
  | Args => sem_args ns ts es
  | If u => tok_of ts <> TEnd -> sem1 (apart 0) (fun r => r expr (FIf u)) ns ts es
  | Else u => sem1 (apart 0) (else_part u) ns ts es
  | Options => semL (fun rest => tok_of rest = TRc) (fun acc r => r _ (FCaseOptions acc)) ns ts es
  | Bodies => sem_bodies ns ts es
  | Query => sem1 anything (fun r => collectQuery r) ns ts es
  | Host => sem1 (fun rest => tok_of rest <> TDot) (fun r => hostname r) ns ts es
  | Hosts => semL (fun rest => tok_of rest = TInherits \/ tok_of rest = TLc) (fun acc r => r _ (FHostnames acc)) ns ts es
  | OptParent => semO (fun rest => tok_of rest = TLc) parent_part ns ts es
  | Dotted => sem_dotted ns ts es
  end.

End Sem.

(** ** Tactics *)
Ltac unis := unfold word, is in *; repeat match goal with H : k_tok ?k = _ /\ _ |- _ => let H' := fresh "Hv" in destruct H as [H H'] end.
Ltac toks := cbn [tok_of app]; repeat match goal with H : k_tok ?k = _ |- context [k_tok ?k] => rewrite H end; cbn [shown]; repeat match goal with H : k_tok ?k <> TEnd |- context [shown ?x (k_tok ?k)] => rewrite (shown_not x H) end.
Ltac red_tok := repeat match goal with |- context [tok_eqb (shown ?x ?t) ?b] => rewrite (@shown_eqb x t b) by discriminate end; repeat match goal with |- context [tok_eqb ?a ?b] =>
    let v := eval vm_compute in (tok_eqb a b) in
    match v with true => change (tok_eqb a b) with true | false => change (tok_eqb a b) with false end end; cbv beta iota; cbn [negb].
Ltac norm H := cbn [app] in H; repeat (rewrite <- app_assoc in H; cbn [app] in H).
Ltac nend := first [assumption|toks; first [assumption|discriminate]].
Ltac g1 :=
  cbv beta;
  lazymatch goal with
  | |- ends (fun r => bind curTok _) ?c _ => match goal with H : GrammarBase.st _ _ _ _ _ ?ks c |- _ => apply (ends_cur H); toks; red_tok end
  | |- ends (fun r => bind (r unit FNextToken) _) ?c _ => match goal with H : GrammarBase.st _ _ _ _ _ _ c |- _ =>
      let c1 := fresh "c" in let H1 := fresh "S" in match goal with Hf : o_factory _ = true, Hl : lawful _ _ |- _ => eapply (ends_next Hf Hl H) end; [nend|intros c1 H1; clear H] end
  | |- ends (fun r => bind (span _) _) _ _ => eapply ends_step; [reflexivity|]
  | |- ends (fun r => bind tokStart _) _ _ => eapply ends_step; [reflexivity|]
  | |- ends (fun r => bind getPos _) _ _ => eapply ends_step; [reflexivity|]
  | |- ends (fun r => bind (ret _) _) _ _ => eapply ends_step; [reflexivity|]
  | |- ends (fun r => bind (assertToken _) _) ?c _ => match goal with H : GrammarBase.st _ _ _ _ _ _ c |- _ => apply (ends_assert H); [toks; reflexivity|] end
  | |- ends (fun r => bind tokenString _) ?c _ => match goal with H : GrammarBase.st _ _ _ _ _ _ c |- _ =>
      eapply (ends_string H); [first [left; eassumption|right; split; [eassumption|reflexivity]]|] end
  | |- ends (fun r => bind (ask c_val) _) ?c _ => match goal with H : GrammarBase.st _ _ _ _ _ _ c |- _ =>
      first [match goal with Hv : k_val ?k = _ |- _ => apply (ends_val H); [rewrite Hv; exact Logic.I|] end|apply ends_ask] end
  | |- ends (fun r => bind (pushName _) _) ?c _ => match goal with H : GrammarBase.st _ _ _ _ _ _ c |- _ =>
      let c1 := fresh "c" in let H1 := fresh "S" in eapply (ends_push H); intros c1 H1; clear H end
  | |- ends (fun r => bind popName _) ?c _ => match goal with H : GrammarBase.st _ _ _ _ _ _ c |- _ =>
      let c1 := fresh "c" in let H1 := fresh "S" in eapply (ends_pop H); intros c1 H1; clear H end
  | |- ends (fun r => bind (qualifiedName _) _) ?c _ => match goal with H : GrammarBase.st _ _ _ _ _ _ c |- _ => apply (ends_qualified H) end
  | |- ends (fun r => bind (bind _ _) _) _ _ => apply ends_bind
  | |- ends (fun r => bind (if ?b then _ else _) _) _ _ => apply ends_bind
  | |- ends (fun r => ret _) _ _ => apply ends_ret
  | |- ends (fun r => addDefinition _) ?c _ => match goal with H : GrammarBase.st _ _ _ _ _ _ c |- _ =>
      let c1 := fresh "c" in let H1 := fresh "S" in eapply (ends_define H); intros c1 H1; clear H end
  end.
Ltac g := repeat g1.
(** a phrase parsed by a function *)
Ltac call1 H := cbv beta; first [apply ends_bind|idtac]; eapply ends_imp; [eapply H; [reflexivity|eassumption|]|
  let e1 := fresh "e" in let c1 := fresh "c" in let S := fresh "S" in let E := fresh "E" in let A := fresh "A" in intros e1 c1 (S & E & A)].
Ltac same_defs S := cbn [defs flat_map opt_flat]; cbn [defs flat_map opt_flat] in S; rewrite ?app_nil_r, ?app_assoc, ?app_nil_r; rewrite ?app_nil_r, ?app_assoc, ?app_nil_r in S; exact S.
Ltac sd := match goal with S : GrammarBase.st _ _ _ _ _ _ ?c |- GrammarBase.st _ _ _ _ _ _ ?c => same_defs S end.
Ltac fin := match goal with S : GrammarBase.st _ _ _ _ _ _ ?c |- GrammarBase.st _ _ _ _ _ _ ?c /\ _ =>
    split; [same_defs S|split; [cbn [strip map option_map]; congruence|try exact Logic.I]] end.

Lemma stops_none n t : continues t = None -> stops n t.
Proof. unfold stops. now intros ->. Qed.
Ltac stop := first [assumption | (unfold apart, stops; toks; cbn [continues]; first [exact Logic.I|lia]) ].
(** the token after a phrase does not continue it *)
Ltac dflt m HA rest := apply apart_tok in HA; apply (@ends_same _ _ m); [intros r; destruct (tok_of rest); cbn [shown]; try reflexivity; first [match goal with |- context [embedded ?x] => destruct (embedded x); reflexivity end|exfalso; cbn in HA; lia]|].
Section Calls.
Variables (o : opts) (m : mode).
Notation st := (st o m).
Lemma list_call p ns ts es term : listed o m p ns ts es -> closing term -> forall c0 ds c rest, st c0 ds ns (ts ++ rest) c -> tok_of rest = term ->
  ends (fun r => r _ (FExpressions term p [])) c (fun l c1 => st c0 (ds ++ flat_map defs es) ns rest c1 /\ map strip l = es).
Proof.
  intros H HC c0 ds c rest S HT. eapply ends_imp; [exact (H term HC [] c0 ds c rest S HT)|]. intros l c1 (S1 & l1 & -> & E). auto.
Qed.
Lemma array_call ns ts es l : listed o m PArgument ns ts es -> grouped es l -> forall c0 ds c rest, st c0 ds ns (ts ++ rest) c -> tok_of rest = TRb ->
  ends (fun r => arrayExpression r) c (fun l1 c1 => st c0 (ds ++ flat_map defs l) ns rest c1 /\ map strip l1 = l).
Proof.
  intros H HG c0 ds c rest S HT. unfold arrayExpression. apply ends_bind. eapply ends_imp; [eapply (list_call H); [unfold closing; cbn [In]; tauto|exact S|exact HT]|].
  intros l1 c1 (S1 & E1). g. rewrite (defs_grouped HG). split; [exact S1|]. apply join_grouped. congruence.
Qed.
End Calls.
Ltac callL H := cbv beta; first [apply ends_bind|idtac]; eapply ends_imp; [eapply (list_call H); [unfold closing; cbn [In]; tauto|eassumption|toks; reflexivity]|
  let e1 := fresh "l" in let c1 := fresh "c" in let S := fresh "S" in let E := fresh "E" in intros e1 c1 (S & E)].
Ltac callA H HG := cbv beta; first [apply ends_bind|idtac]; eapply ends_imp; [eapply (array_call H HG); [eassumption|toks; reflexivity]|
  let e1 := fresh "l" in let c1 := fresh "c" in let S := fresh "S" in let E := fresh "E" in intros e1 c1 (S & E)].
Ltac one := let e' := fresh "e'" in let E := fresh "E" in let c0 := fresh "c0" in let ds := fresh "ds" in let c := fresh "c" in let rest := fresh "rest" in let S := fresh "S" in let HA := fresh "HA" in
  unis; intros e' E c0 ds c rest S HA; injection E as <-; norm S.
