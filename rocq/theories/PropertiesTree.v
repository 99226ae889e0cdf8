(** * PropertiesTree: visitors, literals, validation, ToPN and the command
      (C19, C30-C41, C46)

    Stated with SpecVisit.v, SpecLiteral.v, SpecValidate.v and SpecToPN.v;
    Examples beside each theorem run it on a parsed source. *)
From Verif Require Import Base Float Tokens Ast Pn ToPN Ctx Locator Lexer Parser Literal Visit Validator Api Conform.
From Verif Require Import SpecVisit VisitProof SpecLiteral LiteralProof SpecValidate ValidateProof SpecToPN ToPNProof ApiProof.

Definition puppet : opts := mkopts false false false false false true no_letter.
Definition tasks : opts := mkopts false false false true false true no_letter.
Definition workflow : opts := mkopts false false false true true true no_letter.
(** The parsed source, and its first statement *)
Definition tree (o : opts) (s : string) : expr :=
  match parse conf_fuel o (lit s) false with POk e => e | _ => EQName (mkpos 0 0) (lit "failed") end.
Definition first_statement (o : opts) (s : string) : expr :=
  match tree o s with
  | EProgram _ (EBlock _ (e :: _)) _ => e
  | EProgram _ e _ => e
  | e => e
  end.
(** The codes a validation reports *)
Definition codes_of (k : checker) (o : opts) (st : strictness) (s : string) : option (list (vcode * severity)) :=
  match validate k (lit s) st (tree o s) with
  | inl l => Some (map (fun i => (i_code i, i_sev i)) l)
  | inr _ => None
  end.

(** ** C30: visitors *)
Theorem C30_all_contents : forall (p : list expr) (e : expr),
  exists positions,
    Sorted.StronglySorted before positions
    /\ (forall a anc d, below e a anc d -> In a positions)
    /\ Forall2 (fun a v => exists anc, below e a anc (snd v) /\ fst v = anc ++ p)
               positions (allContents p e).
Proof. exact visit_correct. Qed.
Theorem C30_all_contents_count : forall p e, S (List.length (allContents p e)) = nodes e.
Proof. exact visit_count. Qed.
Theorem C30_contents : forall p e, contents p e = map (fun c => (e :: p, c)) (parts e).
Proof. exact contents_correct. Qed.
Example C30_case : List.length (allContents [] (tree puppet "notice(1 + 2, [$a, { b => 'c' }])")) = 13%nat.
Proof. vm_compute. reflexivity. Qed.
Print Assumptions C30_all_contents.
Print Assumptions C30_all_contents_count.
Print Assumptions C30_contents.

(** ** C31: literals *)
Theorem C31_literal_exact : forall e v, toLiteral e = LOk v <-> denotes e v.
Proof. split; [apply toLiteral_sound | apply toLiteral_complete]. Qed.
Example C31_case : toLiteral (first_statement puppet "[1, 'a', { b => -2, 'b' => [undef] }]")
  = LOk (LvList [LvInt 1; LvStr (lit "a"); LvMap [(LvStr (lit "b"), LvList [LvNil])]]).
Proof. vm_compute. reflexivity. Qed.
Example C31_not_literal : toLiteral (first_statement puppet "[1, $x]") = LNot.
Proof. vm_compute. reflexivity. Qed.
Print Assumptions C31_literal_exact.

(** ** C32: evaluating a parsed literal can crash: a hash with an array as key
    makes Go hash an unhashable value *)
Theorem C32_refuted : toLiteral (first_statement puppet "{ [1] => 2 }") = LPanic.
Proof. vm_compute. reflexivity. Qed.
(** What holds: only a hash with such a key (or with an entry that is no pair,
    which the parser never makes, C18) crashes.  Missing from the full
    property: those hashes. *)
Theorem C32_literal_crash_partial : forall e, toLiteral e = LPanic -> exists x, within x e /\ bad_hash x.
Proof. exact toLiteral_panic. Qed.
Print Assumptions C32_literal_crash_partial.

(** ** C33 *)
Theorem C33_validation_is_a_sum : forall k text s e l,
  validate k text s e = inl l ->
  exists l0 positions ls,
    check text s [] k e = inl l0
    /\ Sorted.StronglySorted before positions
    /\ (forall a anc d, below e a anc d -> In a positions)
    /\ Forall2 (fun a l' => exists anc d, below e a anc d /\ check text s anc k d = inl l') positions ls
    /\ l = l0 ++ List.concat ls.
Proof. exact validate_sum. Qed.
(** a node's own issues do not depend on its siblings, nor on more of its
    ancestors than their outline *)
Theorem C33_node_check_is_local : forall k text s anc d,
  summaries (check text s (map outline anc) k d) = summaries (check text s anc k d).
Proof. exact check_local. Qed.
Example C33_case : codes_of Basic puppet StrictError "$x::y = { a => 1, a => 2 }  class c($::a, $::a) {}"
  = Some [(CrossScopeAssignment, SevError); (DuplicateKey, SevError); (DuplicateParameter, SevError);
          (IllegalParameterName, SevError); (IllegalParameterName, SevError)].
Proof. vm_compute. reflexivity. Qed.
Print Assumptions C33_validation_is_a_sum.
Print Assumptions C33_node_check_is_local.

(** ** C34, C35 *)
Theorem C34_strictness_only_demotes : forall k text s e,
  validate k text s e = chk_map (seen_with s) (validate k text StrictError e).
Proof. exact strictness_demotes. Qed.
Theorem C35_severity : forall k text s e l i,
  validate k text s e = inl l -> In i l -> documented_severity s (i_code i) = Some (i_sev i).
Proof. exact severity_documented. Qed.
Example C34_case_warning : codes_of Basic puppet StrictWarning "$x::y = { a => 1, a => 2 }"
  = Some [(CrossScopeAssignment, SevError); (DuplicateKey, SevWarning)].
Proof. vm_compute. reflexivity. Qed.
Example C34_case_off : codes_of Basic puppet StrictOff "$x::y = { a => 1, a => 2 }" = Some [(CrossScopeAssignment, SevError)].
Proof. vm_compute. reflexivity. Qed.
Print Assumptions C34_strictness_only_demotes.
Print Assumptions C35_severity.

(** ** C36 *)
Theorem C36_duplicate_keys_found : forall k text s e l anc p es j x,
  s <> StrictOff -> validate k text s e = inl l -> node_at e anc (EHash p es) ->
  repeats_key es j -> nth_error es j = Some x ->
  exists i, In i l /\ i_code i = DuplicateKey /\ i_at i = x.
Proof. exact duplicate_keys_found. Qed.
Theorem C36_duplicate_keys_real : forall k text s anc p es l i,
  simple_keys es -> check text s anc k (EHash p es) = inl l -> In i l ->
  i_code i = DuplicateKey /\ exists j, repeats_key es j /\ nth_error es j = Some (i_at i).
Proof. exact duplicate_keys_real. Qed.
Example C36_case : exists p es, first_statement puppet "{ a => 1, 'b' => 2, 'a' => 3, 1.0 => 4, 0x1 => 5, 1 => 6 }" = EHash p es
  /\ repeats_key es 2 /\ repeats_key es 5 /\ simple_keys es.
Proof.
  vm_compute first_statement. do 2 eexists. split; [reflexivity|].
  split; [|split].
  - exists O. repeat eexists; cbn; try reflexivity; try lia; try constructor.
  - exists 4%nat. repeat eexists; cbn; try reflexivity; try lia; try constructor.
  - intros q k v H w D. cbn in H.
    repeat destruct H as [H|H]; try (injection H as <- <- <-; inversion D; subst; exact I). destruct H.
Qed.
Print Assumptions C36_duplicate_keys_found.
Print Assumptions C36_duplicate_keys_real.

(** ** C37: the parameters of lambdas, plans and applications are not
    compared *)
Theorem C37_refuted_lambda : codes_of Basic puppet StrictError "map([1]) |$a, $a| { $a }" = Some [].
Proof. vm_compute. reflexivity. Qed.
Theorem C37_refuted_application : codes_of Basic puppet StrictError "application foo($a, $a) {}" = Some [].
Proof. vm_compute. reflexivity. Qed.
(** What holds: functions in every validator, classes and defined types under
    ValidatePuppet (the others reject them as a whole), EPP templates.  Missing
    from the full property: plain lambdas, plans and applications. *)
Theorem C37_duplicate_params_found_partial : forall k text s e l anc d ps j x,
  validate k text s e = inl l -> node_at e anc d -> checked_params k anc d = Some ps ->
  repeats_param ps j -> nth_error ps j = Some x ->
  exists i, In i l /\ i_code i = DuplicateParameter /\ i_at i = x.
Proof. exact duplicate_params_found. Qed.
Example C37_case : codes_of Tasks tasks StrictError "function f($a, $b, $a) {}" = Some [(DuplicateParameter, SevError)].
Proof. vm_compute. reflexivity. Qed.
Print Assumptions C37_duplicate_params_found_partial.

(** ** C38 *)
Theorem C38_accepted_parameter_is_simple : forall k text s e l anc p n v t r,
  validate k text s e = inl l -> node_at e anc (EParam p n v t r) ->
  (forall i, In i l -> i_at i = EParam p n v t r ->
     i_code i <> IllegalParameterName /\ i_code i <> IllegalNumericParameter) ->
  simple_name n /\ keyOk n = true.
Proof. exact accepted_param_simple. Qed.
Example C38_case : codes_of Basic puppet StrictError "define d($a_1, $b::c) {}" = Some [(IllegalParameterName, SevError)].
Proof. vm_compute. reflexivity. Qed.
Print Assumptions C38_accepted_parameter_is_simple.

(** ** C39 *)
Theorem C39_catalog_reported : forall k text s e l,
  k <> Basic -> validate k text s e = inl l ->
  map i_at (filter (has_code CatalogOperationNotSupported) l)
  = keep catalog_dec (e :: map snd (allContents [] e)).
Proof. exact catalog_reported. Qed.
Theorem C39_catalog_allowed : forall text s e l i,
  validate Basic text s e = inl l -> In i l -> i_code i <> CatalogOperationNotSupported.
Proof. exact catalog_allowed. Qed.
Theorem C39_steps_reported : forall k text s e l,
  k <> Workflow -> validate k text s e = inl l ->
  map i_at (filter (has_code WorkflowOperationNotSupported) l)
  = keep is_step_dec (e :: map snd (allContents [] e)).
Proof. exact steps_reported. Qed.
Theorem C39_steps_allowed : forall text s e l i,
  validate Workflow text s e = inl l -> In i l -> i_code i <> WorkflowOperationNotSupported.
Proof. exact steps_allowed. Qed.
Example C39_case : codes_of Tasks tasks StrictError "if true { file { 'a': ensure => file } -> A['b'] }"
  = Some [(CatalogOperationNotSupported, SevError); (CatalogOperationNotSupported, SevError)].
Proof. vm_compute. reflexivity. Qed.
Example C39_case_step : codes_of Basic workflow StrictError "workflow w { } { action a { } { } }"
  = Some [(WorkflowOperationNotSupported, SevError); (WorkflowOperationNotSupported, SevError)].
Proof. vm_compute. reflexivity. Qed.
Print Assumptions C39_catalog_reported.
Print Assumptions C39_catalog_allowed.
Print Assumptions C39_steps_reported.
Print Assumptions C39_steps_allowed.

(** ** C40, C41 *)
Theorem C40_parser_validator : forall k s r source,
  (forall e, parserValidator k s r source = PvParseIssue e <-> r = PReported e)
  /\ (forall e, parserValidator k s r source = PvOk e <-> r = POk e /\ validate k source s e = inl [])
  /\ (forall e l, parserValidator k s r source = PvIssues e l <-> r = POk e /\ validate k source s e = inl l /\ l <> [])
  /\ (parserValidator k s r source = PvCrash <->
      (exists off, r = PParseError off) \/ (exists p, r = PCrash p)
      \/ (exists e p, r = POk e /\ validate k source s e = inr p)).
Proof. exact parserValidator_correct. Qed.
Print Assumptions C40_parser_validator.
Theorem C41_exit_status : forall fuel c isL source st pe issues ast,
  cli fuel c isL source = Exit st pe issues ast ->
  let r := parse fuel (cli_parseopts c isL) source false in
  (st = 1 \/ st = 0)
  /\ (pe = true <-> parse_failed r)
  /\ (st = 1 <-> parse_failed r \/
        exists e l i, r = POk e /\ validatePuppet source (cli_strict c) e = inl l /\ In i l /\ i_sev i = SevError)
  /\ (forall q, ast = Some q <-> st = 0 /\ cli_validateOnly c = false /\ exists e, r = POk e /\ toPN e = Some q)
  /\ (forall e, r = POk e -> validatePuppet source (cli_strict c) e = inl issues).
Proof. exact cli_status. Qed.
Theorem C41_status_ignores_validate_only : forall fuel v1 v2 st t w ep isL source x1 pe1 i1 a1 x2 pe2 i2 a2,
  cli fuel (mkcli v1 st t w ep) isL source = Exit x1 pe1 i1 a1 ->
  cli fuel (mkcli v2 st t w ep) isL source = Exit x2 pe2 i2 a2 ->
  x1 = x2 /\ pe1 = pe2 /\ i1 = i2.
Proof. exact cli_validate_only. Qed.
Definition cli_case (v : bool) (s : string) : option (Z * bool * nat * option str) :=
  match cli conf_fuel (mkcli v StrictWarning false false false) no_letter (lit s) with
  | Exit st pe l ast => Some (st, pe, List.length l, option_map format ast)
  | _ => None
  end.
Example C41_case_parse_error : cli_case false "$x = (" = Some (1, true, O, None).
Proof. vm_compute. reflexivity. Qed.
Example C41_case_error : cli_case false "$x::y = 2" = Some (1, false, 1%nat, None).
Proof. vm_compute. reflexivity. Qed.
Example C41_case_warning : cli_case false "$x = { a => 1, a => 2 }"
  = Some (0, false, 1%nat, Some (lit "(block (= (var ""x"") (hash (=> (qn ""a"") 1) (=> (qn ""a"") 2))))")).
Proof. vm_compute. reflexivity. Qed.
Example C41_case_validate : cli_case true "$x = { a => 1, a => 2 }" = Some (0, false, 1%nat, None).
Proof. vm_compute. reflexivity. Qed.
Print Assumptions C41_exit_status.
Print Assumptions C41_status_ignores_validate_only.

(** ** C46: a plan is not checked itself *)
Theorem C46_refuted : codes_of Tasks tasks StrictError "plan foo($a, $a) {}" = Some []
  /\ codes_of Tasks tasks StrictError "function foo($a, $a) {}" = Some [(DuplicateParameter, SevError)].
Proof. split; vm_compute; reflexivity. Qed.
(** What holds: the nodes inside a plan are checked like all others: what the
    check of a node with its ancestors reports is part of the result. *)
Theorem C46_nodes_in_plans_partial : forall k text s e l anc d,
  validate k text s e = inl l -> node_at e anc d ->
  exists l', check text s anc k d = inl l' /\ incl l' l.
Proof. exact validate_node. Qed.
Example C46_case : codes_of Tasks tasks StrictError "plan foo($a) { function f($b, $b) {} }"
  = Some [(NotAbsoluteTopLevel, SevError); (DuplicateParameter, SevError)].
Proof. vm_compute. reflexivity. Qed.
Print Assumptions C46_nodes_in_plans_partial.

(** ** C19 *)
Theorem C19_ready_trees_have_PN : forall e, pn_ready e -> exists q, toPN e = Some q.
Proof. exact toPN_ready. Qed.
Example C19_crash : toPN (tree puppet "define d($b::c) {}") = None.
Proof. vm_compute. reflexivity. Qed.
Print Assumptions C19_ready_trees_have_PN.
