(** * GrammarSteps: the rules of the grammar, workflow steps *)
From Verif Require Import Base Float Tokens Ast Ctx Locator Lexer Parser SpecLex ReaderProof Utf8Facts LexBase GapProof LocatorProof LexTokens LexCur Evals Ends SpecGrammar GrammarBase GrammarFirst GrammarTree GrammarSem GrammarAtoms GrammarExprs GrammarStmts GrammarLists GrammarChain GrammarDefs GrammarRes.
From Coq Require Import Lia ZifyBool.

(** ** Values computed later *)
Fixpoint strip_deferred (e : expr) : strip (convertToDeferred e) = deferred (strip e).
Proof.
  pose (L := fix L (l : list expr) : map strip (map convertToDeferred l) = map deferred (map strip l) :=
    match l with [] => eq_refl | x :: l' => f_equal2 cons (strip_deferred x) (L l') end).
  destruct e; try reflexivity; cbn [convertToDeferred strip deferred].
  all: match goal with
  | |- context [EList _ (map strip (map convertToDeferred ?l))] => exact (f_equal (EList z) (L l))
  | |- context [EHash _ (map strip (map convertToDeferred ?l))] => exact (f_equal (EHash z) (L l))
  | |- EKeyed _ _ _ = _ => exact (f_equal2 (EKeyed z) (strip_deferred e1) (strip_deferred e2))
  | |- context [ECallNamed] => destruct e; try reflexivity; cbn [convertToDeferred strip deferred]; rewrite <- (L args); reflexivity
  | _ => destruct k; try reflexivity; destruct e; reflexivity
  end.
Qed.
Fixpoint defs_deferred (e : expr) : defs e = [] -> defs (deferred e) = [].
Proof.
  pose (L := fix L (l : list expr) : flat_map defs l = [] -> flat_map defs (map deferred l) = [] :=
    match l return flat_map defs l = [] -> flat_map defs (map deferred l) = [] with
    | [] => fun H => H
    | x :: l' => fun H => match app_eq_nil _ _ H with conj H1 H2 => eq_trans (f_equal2 (@app expr) (@defs_deferred x H1) (L l' H2)) eq_refl end
    end).
  destruct e; try exact (fun H => H).
  all: match goal with
  | |- defs (EList _ ?l) = [] -> _ => exact (L l)
  | |- defs (EHash _ ?l) = [] -> _ => exact (L l)
  | |- defs (EKeyed _ _ _) = [] -> _ => intros H; cbn [defs] in H; apply app_eq_nil in H; destruct H as [H1 H2]; cbn [deferred defs]; rewrite (@defs_deferred e1 H1), (@defs_deferred e2 H2); reflexivity
  | |- defs (ECallNamed _ _ _ _ _) = [] -> _ => intros H; cbn [defs] in H; apply app_eq_nil in H as H1; destruct H1 as [_ H1]; apply app_eq_nil in H1; destruct H1 as [H1 _]; pose proof (L args H1) as H2;
      destruct e; try exact H; cbn; rewrite H2; reflexivity
  | _ => destruct k; try exact (fun H => H); intros _; destruct e; reflexivity
  end.
Qed.
Lemma no_defs_deferred l : flat_map defs l = [] -> flat_map defs (map deferred l) = [].
Proof. induction l as [|x l IH]; cbn; [auto|]. intros H. apply app_eq_nil in H. destruct H as [H1 H2]. now rewrite (@defs_deferred x H1), IH. Qed.
Lemma map_deferred l : map strip (map convertToDeferred l) = map deferred (map strip l).
Proof. rewrite !map_map. apply map_ext. exact strip_deferred. Qed.

Section Rules.
Variables (o : opts) (m : mode).
Hypothesis Hfac : o_factory o = true.
Hypothesis Hm : lawful o m.
Notation st := (st o m).
Notation sem := (sem o m).
Notation sem1 := (sem1 o m).
Notation semL := (semL o m).
Notation semC := (semC o m).
Notation semO := (semO o m).
Notation listed := (listed o m).
Notation sem_braces := (@sem_braces o m Hfac Hm).
Notation identifier_ok := (@identifier_ok o m Hfac Hm).

Lemma identifierExpr_ok B (kk : recT -> option (pos * str) -> M B) c0 ds ns k rest c n Q : attribute_name k n -> st c0 ds ns (k :: rest) c ->
  (forall p c1, st c0 ds ns rest c1 -> ends (fun r => kk r (Some (p, n))) c1 Q) -> ends (fun r => bind (identifierExpr r) (kk r)) c Q.
Proof.
  intros HN S HK. unfold identifierExpr. apply ends_bind. destruct (keyword_attr HN) as [[Ht Hv]|(Hk & Hi & Hmu & He)].
  - g1. g1. apply ends_ask. g. apply HK. assumption.
  - g1. g1. apply ends_ask. cbn [tok_of]. destruct (tok_eqb_spec (k_tok k) TIdentifier) as [X|_]; [congruence|]. rewrite Hk. g. apply HK. assumption.
Qed.
Ltac name_eq := repeat match goal with |- context [str_eqb ?a ?b] => destruct (str_eqb a b) eqn:?; [match goal with X : str_eqb a b = true |- _ => apply str_eqb_eq in X; congruence end|] end.
Lemma sem_property ns k1 n k2 ts v : attribute_name k1 n -> n <> lit "parameters" -> n <> lit "returns" -> is TFarrow k2 -> sem Handle ns ts [v] ->
    sem StepProp ns (k1 :: k2 :: ts) [EKeyed z (EQName z n) v].
Proof.
  intros HN N1 N2 Hk H. one. unfold stepProperty. g1. eapply (identifierExpr_ok HN S). intros p c1 S1. clear S. cbv beta iota. g1. g1. g1.
  destruct (str_eqb n (lit "parameters")) eqn:E1; [apply str_eqb_eq in E1; congruence|]. destruct (str_eqb n (lit "returns")) eqn:E2; [apply str_eqb_eq in E2; congruence|].
  call1 H; [apply closed_apart; [exact HA|lia]|]. g. fin.
Qed.
Lemma sem_parameters ns k1 k2 k3 ts ps k4 : attribute_name k1 (lit "parameters") -> is TFarrow k2 -> paren k3 -> sem (ListOf Param) ns ts ps -> is TRp k4 ->
    sem StepProp ns (k1 :: k2 :: k3 :: ts ++ [k4]) [entry "parameters" (EList z ps)].
Proof.
  intros HN Hk Hp H H4. one. unfold stepProperty. g1. eapply (identifierExpr_ok HN S). intros p c1 S1. clear S. cbv beta iota. g1. g1. g1.
  rewrite str_eqb_refl. cbv iota. unfold parameterList, parameterListOf. destruct Hp as [Hp|Hp]; (g1; g1; g1; g1; callL H; g; unfold entry; fin).
Qed.
Lemma sem_returns ns k1 k2 k3 ts ps k4 : attribute_name k1 (lit "returns") -> is TFarrow k2 -> paren k3 -> sem (ListOf ReturnParam) ns ts ps -> is TRp k4 ->
    sem StepProp ns (k1 :: k2 :: k3 :: ts ++ [k4]) [entry "returns" (EList z ps)].
Proof.
  intros HN Hk Hp H H4. one. unfold stepProperty. g1. eapply (identifierExpr_ok HN S). intros p c1 S1. clear S. cbv beta iota. g1. g1. g1.
  change (str_eqb (lit "returns") (lit "parameters")) with false. rewrite str_eqb_refl. cbv iota. unfold returnParameters, parameterListOf. destruct Hp as [Hp|Hp]; (g1; g1; g1; g1; callL H; g; unfold entry; fin).
Qed.
Lemma sem_alias_name ns k n : attribute_name k n -> sem Alias ns [k] [EString z n].
Proof. intros HN. one. unfold attributeAlias. g1. eapply (identifier_ok HN S). intros c1 S1. clear S. cbv beta iota. g. fin. Qed.
Lemma sem_no_alias ns : sem OptAlias ns [] [].
Proof.
  intros c0 ds c rest S HA. norm S. unfold alias_part. g1. destruct (tok_eqb_spec (tok_of rest) TAssign) as [X|_].
  { unfold closed, closing in HA. rewrite X in HA. cbn [In] in HA. intuition discriminate. } g. split; [sd|reflexivity].
Qed.
Lemma sem_one_alias ns k ts e : firsts Alias ts [e] -> is TAssign k -> sem Alias ns ts [e] -> sem OptAlias ns (k :: ts) [e].
Proof.
  intros HF Hk H c0 ds c rest S HA. destruct (firsts_one HF eq_refl) as [Hne Hf]. cbn [first] in Hf. unis. norm S. unfold alias_part. g1. g1. g1. rewrite (tok_of_app _ Hne).
  match goal with |- ends _ _ ?Q2 => set (QQ := Q2) end.
  apply (@ends_same _ _ (fun r => e <- attributeAlias r ;; ret (Some e))). { intros r. destruct (tok_of ts); cbn [shown]; try reflexivity; discriminate Hf. } unfold QQ. clear QQ.
  call1 H; [exact Logic.I|]. g. split; [sd|]. cbn [option_map hd_error]. congruence.
Qed.
Lemma sem_many_aliases ns k k1 ts es k2 : is TAssign k -> paren k1 -> sem (ListOf Alias) ns ts es -> is TRp k2 -> sem OptAlias ns (k :: k1 :: ts ++ [k2]) [EList z es].
Proof.
  intros Hk Hp H H2 c0 ds c rest S HA. unis. norm S. unfold alias_part. g1. g1. destruct Hp as [Hp|Hp]; (g1; g1; g1; callL H; apply ends_ask; g; (split; [sd|]; cbn; congruence)).
Qed.
Lemma sem_return_param ns ts1 t k n ts2 v : few t -> few v -> sem OptType ns ts1 t -> is TVariable k -> k_val k = VStr n -> sem OptAlias ns ts2 v ->
    sem ReturnParam ns (ts1 ++ k :: ts2) [EParam z n (hd_error v) (hd_error t) false].
Proof.
  intros Ft Fv H1 Hk Hv H2. one. unfold returnParameter. g1. apply ends_bind. eapply ends_imp; [eapply H1; [exact S|right; exact Hk]|]. intros t1 c1 (S1 & Et). clear S. rewrite (few_defs Ft) in S1.
  unfold parameterName. apply ends_bind. g1. g1. rewrite Hv. cbv iota. g1. g1.
  match goal with |- ends _ ?c3 ?Q2 => set (QQ := Q2) end.
  apply (@ends_same _ _ (fun r => bind (alias_part r) (fun value => p <- span (c_tsp c) ;; ret (EParam p n value t1 false)))); [reflexivity|]. unfold QQ. clear QQ. apply ends_bind.
  eapply ends_imp; [eapply H2; [eassumption|exact HA]|]. intros v1 c4 (S4 & Ev). rewrite (few_defs Fv) in S4. g. fin.
Qed.
Lemma sem_state_attr ns k1 n k2 ts e : attribute_name k1 n -> is TFarrow k2 -> sem Expression ns ts [e] -> sem StateAttr ns (k1 :: k2 :: ts) [EKeyed z (EQName z n) e].
Proof.
  intros HN Hk H. one. unfold stateAttribute. g1. eapply (identifierExpr_ok HN S). intros p c1 S1. clear S. cbv beta iota. g1. g1.
  call1 H; [apply closed_apart; [exact HA|lia]|]. g. fin.
Qed.
(** ** Iterations *)
Lemma sem_no_iteration n ns : sem (Iteration n) ns [] [].
Proof.
  intros acc c0 ds c rest S HA. norm S. unfold iter_part. g1. rewrite HA. red_tok. g1. g1. rewrite HA. red_tok. g. split; [sd|]. exists []. now rewrite app_nil_r.
Qed.
Lemma iterator_ok ns name k f k1 ts1 ps k2 k3 ts2 vs k4 rest acc c0 ds c : is TIdentifier k -> k_val k = VStr f -> In f (map lit iterators) -> paren k1 -> sem (ListOf Param) ns ts1 ps -> is TRp k2 ->
    is TPipe k3 -> sem (ListOf Param) ns ts2 vs -> is TPipeEnd k4 -> st c0 ds ns (k :: k1 :: ts1 ++ k2 :: k3 :: ts2 ++ k4 :: rest) c ->
    ends (fun r => s <- tokenString ;; if mem_str s [lit "times"; lit "range"; lit "each"] then it <- iterator r name ;; ret (acc ++ [it]) else issue2 PARSE_EXPECTED_ITERATOR_STYLE [("style"%string, s)]) c
      (fun l c1 => st c0 (ds ++ flat_map defs [iteration name f ps vs]) ns rest c1 /\ exists l1, l = acc ++ l1 /\ map strip l1 = [iteration name f ps vs]).
Proof.
  intros Hk Hv HI Hp H1 H2 H3 H4 H5 S. unis. g1.
  assert (HM : mem_str f [lit "times"; lit "range"; lit "each"] = true). { cbn [In map iterators] in HI. destruct HI as [<-|[<-|[<-|[]]]]; reflexivity. }
  rewrite HM. cbv iota. apply ends_bind. unfold iterator. g1. cbv zeta. g1. g1. g1. apply ends_bind. unfold parameterList, parameterListOf, lambdaParameterList.
  destruct Hp as [Hp|Hp]; (g1; g1; callL H1; g; callL H4; g; unfold iteration, entry; split; [sd|]; eexists; split; [reflexivity|]; cbn [map strip]; congruence).
Qed.
Lemma sem_iteration n ns name pre k f k1 ts1 ps k2 k3 ts2 vs k4 :
    pre = [] /\ name = n \/ (exists v a, pre = [v; a] /\ is TVariable v /\ k_val v = VStr name /\ is TAssign a) ->
    is TIdentifier k -> k_val k = VStr f -> In f (map lit iterators) -> paren k1 -> sem (ListOf Param) ns ts1 ps -> is TRp k2 ->
    is TPipe k3 -> sem (ListOf Param) ns ts2 vs -> is TPipeEnd k4 ->
    sem (Iteration n) ns (pre ++ k :: k1 :: ts1 ++ k2 :: k3 :: ts2 ++ [k4]) [iteration name f ps vs].
Proof.
  intros HP Hk Hv HI Hp H1 H2 H3 H4 H5 acc c0 ds c rest S HA. unis. unfold iter_part. destruct HP as [[-> ->]|(v & a & -> & Hv1 & Hv2 & Ha)]; norm S.
  - g1. g1. g1. eapply iterator_ok; eassumption.
  - unis. g1. g1. g1. g1. g1. g1. g1. g1. g1. eapply iterator_ok; eassumption.
Qed.
(** ** Bodies *)
Lemma sem_body_block ns s ts b : s = SAction \/ s = SStateHandler -> sem Block ns ts [b] -> sem (StepBody s) ns ts [b].
Proof.
  intros Hs H start c0 ds c rest S. pose proof (sem_braces H) as HB. unfold body_part.
  destruct Hs as [-> | ->]; (apply ends_ask; call1 HB; [exact Logic.I|]; g; split; [exact S0|cbn [option_map hd_error]; congruence]).
Qed.
Lemma sem_body_state ns k1 ts es k2 : is TLc k1 -> sem (ListOf StateAttr) ns ts es -> is TRc k2 -> flat_map defs es = [] ->
    sem (StepBody SResource) ns (k1 :: ts ++ [k2]) (match es with [] => [] | _ => [EHash z (map deferred es)] end).
Proof.
  intros H1 H H2 HD start c0 ds c rest S. unis. norm S. unfold body_part. g1. g1. callL H. cbv zeta. g1. g1. g1. rewrite HD, ?app_nil_r in *. destruct es as [|e es].
  - destruct l; [|discriminate E]. cbn. rewrite app_nil_r. split; [assumption|reflexivity].
  - pose proof (@no_defs_deferred (e :: es) HD) as HX. cbn [step_defs hd_error opt_flat defs]. rewrite HX, app_nil_r. destruct l as [|x l]; [discriminate E|]. split; [assumption|].
    cbn [map option_map]. f_equal. change (EHash z (map strip (map convertToDeferred (x :: l))) = EHash z (map deferred (e :: es))). rewrite map_deferred. congruence.
Qed.
Lemma sem_body_steps ns k1 ts es k2 : is TLc k1 -> sem Steps ns ts es -> is TRc k2 ->
    sem (StepBody SWorkflow) ns (k1 :: ts ++ [k2]) (match es with [] => [] | _ => [EBlock z es] end).
Proof.
  intros H1 H H2 start c0 ds c rest S. unis. norm S. unfold body_part. g1. g1. g1. apply ends_bind. eapply ends_imp; [eapply (H []); [eassumption|exact H2]|]. intros l c9 (S9 & l1 & -> & El). g1. g1. cbn [app].
  destruct es as [|e es]; [destruct l1; [|discriminate El]|destruct l1 as [|x l1]; [discriminate El|]]; (split; [exact S9|]); cbn [option_map hd_error strip]; congruence.
Qed.
(** ** Steps *)
Lemma sem_no_steps ns : sem Steps ns [] [].
Proof.
  intros acc c0 ds c k rest S Hk. unis. norm S. apply ends_rec. cbn [body]. unfold activities_body. g1. g1. g1. split; [sd|]. exists []. now rewrite app_nil_r.
Qed.
Lemma sem_step_more ns k1 s k2 n ts e ts2 es : style_word k1 s -> attribute_name k2 n -> sem (StepOf s n) ns ts [e] -> sem Steps ns ts2 es -> sem Steps ns (k1 :: k2 :: ts ++ ts2) (e :: es).
Proof.
  intros (w & HI & Ht & Hv) HN H1 H2 acc c0 ds c k rest S Hk. norm S. apply ends_rec. cbn [body]. unfold activities_body. g1. apply ends_bind. unfold stepExpression. g1. g1. apply ends_bind. unfold stepStyle. g1. g1.
  assert (HS : workflowStyle (lit w) = Some s) by (apply style_of; eauto). rewrite HS. g1. g1. apply ends_bind. unfold stepName. eapply (identifier_ok HN); [eassumption|]. intros c3 S3. cbv beta iota. g1.
  eapply ends_imp; [eapply (H1 _ eq_refl); exact S3|]. intros e1 c4 (S4 & E4). eapply ends_imp; [eapply H2; [exact S4|exact Hk]|]. intros l c5 (S5 & l1 & -> & E5).
  cbn [flat_map]. split; [rewrite app_assoc; exact S5|]. exists (e1 :: l1). rewrite <- app_assoc. split; [reflexivity|]. cbn [map]. congruence.
Qed.
Lemma sem_step_function ns k1 k2 n ts1 ps ts2 r ts3 b ts4 es : few r -> firsts OptReturn ts2 r -> is TFunction k1 -> defined_name k2 n -> sem OptParams ns ts1 ps -> sem OptReturn ns ts2 r -> sem Block ns ts3 [b] ->
    sem Steps ns ts4 es -> sem Steps ns (k1 :: k2 :: ts1 ++ ts2 ++ ts3 ++ ts4) (EFunc z false n ps b (hd_error r) :: es).
Proof.
  intros Fr HF H1 HN HP HR HB H2 acc c0 ds c k rest S Hk. pose proof (@function_ok o m Hfac Hm _ _ _ _ _ _ _ _ _ _ Fr HF H1 HN HP HR HB) as H. unis.
  apply ends_rec. cbn [body]. unfold activities_body. rewrite <- ?app_comm_cons in S. g1. apply ends_bind. unfold stepExpression. g1. g1.
  eapply ends_imp; [eapply (H _ eq_refl); [|exact Logic.I]; replace ((k1 :: k2 :: ts1 ++ ts2 ++ ts3) ++ ts4 ++ k :: rest) with (k1 :: k2 :: (ts1 ++ ts2 ++ ts3 ++ ts4) ++ k :: rest) by (cbn [app]; rewrite <- ?app_assoc; reflexivity); exact S|].
  intros e1 c4 (S4 & E4 & _). eapply ends_imp; [eapply H2; [exact S4|exact Hk]|]. intros l c5 (S5 & l1 & -> & E5).
  cbn [flat_map]. split; [rewrite app_assoc; exact S5|]. exists (e1 :: l1). rewrite <- app_assoc. split; [reflexivity|]. cbn [map]. congruence.
Qed.
Lemma bind_assoc A B C (x : M A) (f : A -> M B) (g : B -> M C) c : bind x (fun a => bind (f a) g) c = bind (bind x f) g c.
Proof. unfold bind. destruct (x c); reflexivity. Qed.
Lemma bind_ext A B (x : M A) (f f' : A -> M B) c : (forall a c, f a c = f' a c) -> bind x f c = bind x f' c.
Proof. intros H. unfold bind. destruct (x c); try apply H; reflexivity. Qed.
Lemma iter_first B (K : recT -> list expr -> M B) name props c Q :
  ends (iter_part name props) c (fun l c1 => ends (fun r => K r l) c1 Q) ->
  ends (fun r => cur <- curTok ;;
  iterName <- (if tok_eqb cur TVariable then
                 n <- tokenString ;; r unit FNextToken ;; assertToken TAssign ;; r unit FNextToken ;; assertToken TIdentifier ;; ret n
               else ret name) ;;
  cur <- curTok ;;
  props <- (if tok_eqb cur TIdentifier then
              s <- tokenString ;;
              if mem_str s [lit "times"; lit "range"; lit "each"] then it <- iterator r iterName ;; ret (props ++ [it])
              else issue2 PARSE_EXPECTED_ITERATOR_STYLE [("style"%string, s)]
            else ret props) ;;
  K r props) c Q.
Proof.
  intros H. apply (@ends_same _ _ (fun r => bind (iter_part name props r) (K r))); [|now apply ends_bind]. intros r. symmetry.
  unfold iter_part. rewrite <- bind_assoc. apply bind_ext. intros cur c1. rewrite <- bind_assoc. apply bind_ext. intros n c2. rewrite <- bind_assoc. reflexivity.
Qed.
Lemma body_first B (K : recT -> option expr -> M B) s start c Q :
  ends (body_part s start) c (fun b c1 => ends (fun r => (match s with SWorkflow => popName | _ => ret tt end) ;; K r b) c1 Q) ->
  ends (fun r => cur <- curTok ;;
  block <- (match s with
            | SWorkflow =>
              b <- (if tok_eqb cur TLc then
                      hstart <- tokStart ;; r unit FNextToken ;; acts <- r _ (FActivities []) ;; p <- span hstart ;;
                      ret (match acts with [] => None | _ => Some (EBlock p acts) end)
                    else ret None) ;;
              popName ;;
              ret b
            | SResource =>
              if tok_eqb cur TLc then
                r unit FNextToken ;; es <- r _ (FExpressions TRc PStateAttribute []) ;;
                let entries := map convertToDeferred es in
                p <- span start ;; r unit FNextToken ;;
                ret (match entries with [] => None | _ => Some (EHash p entries) end)
              else ret None
            | SAction | SStateHandler => b <- braces r ;; ret (Some b)
            end) ;;
  K r block) c Q.
Proof.
  intros H. apply (@ends_same _ _ (fun r => b <- body_part s start r ;; (match s with SWorkflow => popName | _ => ret tt end) ;; K r b)); [|now apply ends_bind]. intros r. symmetry.
  unfold body_part. rewrite <- bind_assoc. apply bind_ext. intros cur c1. destruct s; try reflexivity. rewrite <- bind_assoc. apply bind_ext. intros b c2. rewrite <- bind_assoc. reflexivity.
Qed.
Lemma properties_hash p l ps it : map strip l = ps ++ it -> option_map strip (match l with [] => None | _ => Some (EHash p l) end) = hash_of (ps ++ it).
Proof. intros <-. destruct l; reflexivity. Qed.
Lemma hash_defs l : opt_flat defs (hash_of l) = flat_map defs l.
Proof. destruct l; reflexivity. Qed.
Lemma sem_step_parts ns s n k1 ts1 ps k2 ts2 it ts3 b : few b -> firsts (StepBody s) ts3 b -> is TLc k1 -> sem (ListOf StepProp) (inside ns s n) ts1 ps -> is TRc k2 ->
    sem (Iteration n) (inside ns s n) ts2 it -> sem (StepBody s) (inside ns s n) ts3 b ->
    sem (StepOf s n) ns (k1 :: ts1 ++ k2 :: ts2 ++ ts3) [EStep z (in_scope ns n) s (hash_of (ps ++ it)) (hd_error b)].
Proof.
  intros Fb HF H1 HP H2 HI HB e E start top c0 ds c rest S. injection E as <-. unis. norm S. destruct HF as [[X _]|[Hne Hf]]; [discriminate X|]. cbn [first] in Hf. apply tok_eqb_eq in Hf.
  apply ends_rec. cbn [body]. unfold stepDecl_body. apply ends_bind.
  assert (HS : ends (fun r => match s with SWorkflow => pushName n | _ => ret tt end) c (fun _ c1 => st c0 ds (inside ns s n) (k1 :: ts1 ++ k2 :: ts2 ++ ts3 ++ rest) c1)).
  { destruct s; try (g1; exact S). apply (@ends_same _ _ (fun r => bind (pushName n) (fun _ => ret tt))); [intros r; unfold bind; destruct (pushName n c) as [[]| |]; reflexivity|]. g1. g1. assumption. }
  eapply ends_imp; [exact HS|]. clear HS S. intros u1 c1 S. cbv beta in S. g1. g1. g1. callL HP. g1. g1.
  eapply iter_first.
  eapply ends_imp; [eapply HI; [eassumption|rewrite (tok_of_app _ Hne); exact Hf]|]. intros l3 d4 (S4 & l4 & -> & E4). cbv zeta.
  eapply body_first.
  eapply ends_imp; [eapply HB; exact S4|]. intros b5 d5 (S5 & E5). apply ends_bind.
  assert (HS : ends (fun r => match s with SWorkflow => popName | _ => ret tt end) d5 (fun _ c1 => st c0 (((ds ++ flat_map defs ps) ++ flat_map defs it) ++ step_defs defs s (hd_error b)) ns rest c1)).
  { destruct s; try (g1; exact S5). cbn [inside] in S5. apply (@ends_same _ _ (fun r => bind popName (fun _ => ret tt))); [intros r; unfold bind; destruct (popName d5) as [[]| |]; reflexivity|]. g1. g1. assumption. }
  eapply ends_imp; [exact HS|]. clear HS S5. intros u6 d6 S6. cbv beta in S6. g1. g1. rewrite <- !app_assoc in S6.
  set (e := EStep z (in_scope ns n) s (hash_of (ps ++ it)) (hd_error b)).
  match goal with |- ends (fun _ => if top then addDefinition ?x else _) _ _ => set (x1 := x); assert (EX : strip x1 = e) end.
  { unfold x1, e. cbn [strip]. unfold in_scope. f_equal; [|exact E5]. apply properties_hash. rewrite map_app. congruence. }
  assert (HD : defs e = flat_map defs ps ++ flat_map defs it ++ step_defs defs s (hd_error b) ++ [e]).
  { unfold e at 1. cbn [defs]. rewrite hash_defs, flat_map_app, <- ?app_assoc. reflexivity. }
  destruct top.
  - g1. split; [|exact EX]. rewrite HD, <- EX. rewrite <- ?app_assoc in *. assumption.
  - g1. split; [|exact EX]. assert (HR : inner_defs defs e = flat_map defs ps ++ flat_map defs it ++ step_defs defs s (hd_error b)).
    { change (inner_defs defs e) with (removelast (defs e)). rewrite HD, 2 app_assoc, app_assoc, removelast_last, <- app_assoc. reflexivity. }
    rewrite HR. exact S6.
Qed.
Lemma sem_step_resource ns k1 s k2 n ts e : (match e with EStep _ _ _ _ _ => True | _ => False end) -> o_workflow o = true -> style_word k1 s -> attribute_name k2 n -> stops 13 (k_tok k2) -> sem (StepOf s n) ns ts [e] -> sem Resource ns (k1 :: k2 :: ts) [e].
Proof.
  intros He Hw (w & HI & Ht & Hv) HN Hst H. one. unfold step. g1. apply ends_bind. unfold resource. apply ends_bind.
  eapply (@lift_atom o m Hfac k1 _ (k2 :: ts ++ rest)); [eapply stops_le; [exact Hst|lia]|exists c0, ds, ns; exact S|rewrite Ht; reflexivity|].
  apply ends_rec. cbn [body]. unfold atom_body, leaf. g. split; [exists c0; eauto|]. split; [exact (fun X => X)|]. g1.
  destruct (tok_eqb_spec (k_tok k2) TLc) as [X|_]; [rewrite X in Hst; cbn in Hst; lia|].
  g. eapply ends_step; [reflexivity|]. rewrite (st_opts S0), Hw. assert (HS : workflowStyle (lit w) = Some s) by (apply style_of; eauto). rewrite HS.
  eapply (identifier_ok HN S0). intros c3 S3. cbv beta iota. eapply ends_imp; [eapply (H _ eq_refl); exact S3|]. intros e1 c4 (S4 & E4). split; [exact S4|]. split; [exact E4|]. subst e. destruct e1; try destruct He. exact Logic.I.
Qed.
End Rules.
