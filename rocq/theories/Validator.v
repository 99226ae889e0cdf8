(** * Validator: validator/checker.go, tasks_checker.go, workflow_checker.go,
      validator.go *)
From Verif Require Import Base Float Tokens Ast Pn ToPN Ctx Locator Literal Visit.

(** issue.Severity; StrictOff, StrictWarning and StrictError are the first,
    third and fourth (validator.go:11-15) *)
Inductive severity : Set := SevIgnore | SevDeprecation | SevWarning | SevError.
Inductive strictness : Set := StrictOff | StrictWarning | StrictError.
Definition strict_severity (s : strictness) : severity :=
  match s with StrictOff => SevIgnore | StrictWarning => SevWarning | StrictError => SevError end.

(** validator/issues.go:7-45 *)
Inductive vcode : Set :=
| AppendsDeletesNoLongerSupported | CapturesRestNotLast | CapturesRestNotSupported
| CatalogOperationNotSupported | CrossScopeAssignment | DuplicateDefault | DuplicateKey
| DuplicateParameter | FutureReservedWord | IdemExpressionNotLast | IdemNotAllowedLast
| IllegalAssignmentContext | IllegalAssignmentViaIndex | IllegalAttributeAppend
| IllegalClassref | IllegalDefinitionName | IllegalExpression | IllegalHostnameChars
| IllegalHostnameInterpolation | IllegalNumericAssignment | IllegalNumericParameter
| IllegalParameterName | IllegalQueryExpression | IllegalRegexpTypeMapping
| IllegalSingleTypeMapping | InvalidStepStyle | MultipleAttributesUnfold
| NotAbsoluteTopLevel | NotRvalue | NotTopLevel | NotVirtualizable | ReservedParameter
| ReservedTypeName | ReservedWord | UnsupportedExpression | UnsupportedOperatorInContext
| WorkflowOperationNotSupported.

(** Soft issues can be demoted (validator/issues.go:67-74, 76-78) *)
Definition isDemotable (c : vcode) : bool :=
  match c with DuplicateKey | FutureReservedWord | IdemExpressionNotLast => true | _ => false end.

(** Arguments of an issue: strings, expressions (whose label is shown), and
    the index of a variable *)
Inductive varg : Set := AStr (s : str) | AExpr (e : option expr) | AInt (z : Z).

(** issue.Reported: code, severity, arguments, and the expression that is its
    location *)
Record vissue := mkissue { i_code : vcode; i_sev : severity; i_args : list (string * varg); i_at : expr }.

(** What a check does: append issues, or panic *)
Definition chk := (list vissue + psite)%type.
Definition none : chk := inl [].
Definition chk_app (a b : chk) : chk :=
  match a with
  | inl l => match b with inl l' => inl (l ++ l') | inr p => inr p end
  | inr p => inr p
  end.
Definition chk_concat (l : list chk) : chk := fold_right chk_app none l.
Infix "+++" := chk_app (at level 60, right associativity).

(** checker.initialize and Accept (checker.go:218-223, validator.go:88-96) *)
Definition severity_of (s : strictness) (c : vcode) : severity :=
  match c with
  | FutureReservedWord => SevDeprecation
  | DuplicateKey | IdemExpressionNotLast => strict_severity s
  | _ => SevError
  end.
Definition accept (s : strictness) (c : vcode) (e : expr) (a : list (string * varg)) : chk :=
  match severity_of s c with
  | SevIgnore => none
  | v => inl [mkissue c v a e]
  end.

(** ** Names (checker.go:12-76) *)
Definition isWord (c : Z) : bool :=        (* \w *)
  isUppercaseLetter c || isLowercaseLetter c || isDecimalDigit c || (c =? "_"%ch).
(** Segments separated by '::', each a letter that [p] accepts followed by \w*.
    [at_start]: a segment must start here *)
Fixpoint segments (p : Z -> bool) (at_start : bool) (s : str) : bool :=
  match s with
  | [] => negb at_start
  | c :: s' =>
    if at_start then p c && segments p false s'
    else if isWord c then segments p false s'
    else match s' with
         | d :: s'' => (c =? ":"%ch) && (d =? ":"%ch) && segments p true s''
         | [] => false
         end
  end.
Definition isClassrefExtDecl (s : str) : bool := segments isUppercaseLetter true s.
Definition isClassrefExt (s : str) : bool :=
  isClassrefExtDecl (trim_prefix (lit "::") s).
Definition isClassrefDecl (s : str) : bool := segments isLowercaseLetter true s.
Definition hasIllegalHostnameChars (s : str) : bool :=
  existsb (fun c => negb (isWord c || (c =? "-"%ch) || (c =? "."%ch))) s.
Definition isParamName (s : str) : bool :=
  match s with
  | c :: s' => (isLowercaseLetter c || (c =? "_"%ch)) && forallb isWord s'
  | [] => false
  end.
Definition startsWithNumber (s : str) : bool :=
  match s with c :: _ => isDecimalDigit c | [] => false end.
Fixpoint hasDoubleColon (s : str) : bool :=
  match s with
  | 58 :: (58 :: _) => true
  | _ :: s' => hasDoubleColon s'
  | [] => false
  end.
(** strings.ToLower on ASCII; the names the parser makes are ASCII *)
Definition toLower (s : str) : str :=
  map (fun c => if isUppercaseLetter c then c + 32 else c) s.
Definition reservedTypeNames : list string :=
  ["type"; "any"; "unit"; "scalar"; "boolean"; "numeric"; "integer"; "float"; "collection";
   "array"; "hash"; "tuple"; "struct"; "variant"; "optional"; "enum"; "regexp"; "pattern";
   "runtime"; "init"; "object"; "sensitive"; "semver"; "semverrange"; "string"; "timestamp";
   "timespan"; "typeset"]%string.
Definition futureReservedWords : list string := ["application"; "produces"; "consumes"]%string.
Definition reservedParameters : list string := ["name"; "title"]%string.

Definition isBlock (e : expr) : bool := match e with EBlock _ _ => true | _ => false end.
Definition isProgram (e : expr) : bool := match e with EProgram _ _ _ => true | _ => false end.
Definition isDefault (e : expr) : bool := match e with EDefault _ => true | _ => false end.
Definition isQRef (e : expr) : bool := match e with EQRef _ _ => true | _ => false end.

(** isIdem and its helpers (checker.go:806-834, 856-888) *)
Fixpoint isIdem (e : expr) : bool :=
  match e with
  | EAccess _ _ _ | EConcat _ _ | EHeredoc _ _ _ | EList _ _ | EHash _ _ | ENop _
  | ESelector _ _ _ => true
  | EBlock _ ss => forallb isIdem ss
  | ECase _ t os => isIdem t && forallb isIdem os
  | ECaseOption _ vs t => forallb isIdem vs && isIdem t
  | EIf _ _ t th el => isIdem t && isIdem th && isIdem el
  | EUn _ KParen x => isIdem x
  | EBin _ (KAssignment | KRelationship | KMatch) _ _ _ => false
  | EUn _ KRender _ | ERenderString _ _ => false
  | EBin _ _ _ _ _ => true
  | EUn _ _ _ => true
  | _ => isLiteralValue e
  end.

Section Checks.
Variable text : str.       (* the source the tree was parsed from *)
Variable s : strictness.
Variable p : path.         (* v.path, nearest first *)
Local Notation accept := (accept s).

(** Container (validator.go:99-104) *)
Definition container : option expr := hd_error p.

(** checkAssign (checker.go:593-613) *)
Fixpoint checkAssign (e : expr) : chk :=
  match e with
  | EAccess _ _ _ => accept IllegalAssignmentViaIndex e []
  | EList _ es => chk_concat (map checkAssign es)
  | EUn _ KVariable x =>
    match x with
    | EQName _ n => if hasDoubleColon n then accept CrossScopeAssignment e [("name"%string, AStr n)] else none
    | EInt _ _ z => accept IllegalNumericAssignment e [("var"%string, AInt z)]
    | _ => accept IllegalNumericAssignment e [("var"%string, AInt 0)]
    end
  | _ => none
  end.

(** checkCaptureLast, checkNoCapture (checker.go:615-622, 666-673) *)
Fixpoint checkCaptureLast (ps : list expr) : chk :=
  match ps with
  | q :: ((_ :: _) as ps') =>
    (match q with
     | EParam _ n _ _ true => accept CapturesRestNotLast q [("param"%string, AStr n)]
     | _ => none
     end) +++ checkCaptureLast ps'
  | _ => none
  end.
Definition checkNoCapture (c : expr) (ps : list expr) : chk :=
  chk_concat (map (fun q => match q with
                            | EParam _ n _ _ true =>
                              accept CapturesRestNotSupported q
                                     [("name", AStr n); ("container", AExpr (Some c))]%string
                            | _ => none
                            end) ps).
(** checkFutureReservedWord, checkReservedTypeName (checker.go:624-628, 733-737) *)
Definition checkFutureReservedWord (e : expr) (w : str) : chk :=
  if mem_str w (map lit futureReservedWords)
  then accept FutureReservedWord e [("word"%string, AStr w)] else none.
Definition checkReservedTypeName (e : expr) (w : str) : chk :=
  if mem_str (toLower w) (map lit reservedTypeNames)
  then accept ReservedTypeName e [("name", AStr w); ("expression", AExpr (Some e))]%string else none.

(** checkHostname, checkHostnameString (checker.go:630-646, 648-652) *)
Definition checkHostnameString (e : expr) (h : str) : chk :=
  if hasIllegalHostnameChars h then accept IllegalHostnameChars e [("hostname"%string, AStr h)] else none.
Definition checkHostname (hosts : list expr) : chk :=
  chk_concat (map (fun h => match h with
                            | EConcat _ _ =>
                              match toLiteral h with
                              | LOk (LvStr v) => checkHostnameString h v
                              | LOk _ => inr GoTypeAssert
                              | LNot => accept IllegalHostnameInterpolation h []
                              | LPanic => inr GoTypeAssert
                              end
                            | EString _ v => checkHostnameString h v
                            | _ => none
                            end) hosts).

(** checkIllegalAssignment (checker.go:654-664) *)
Fixpoint illegalAssignment (n : nat) (e : expr) : chk :=
  match n with
  | O => none
  | S n' =>
    match e with
    | EBin _ KAssignment _ _ _ => accept IllegalAssignmentContext e []
    | ELambda _ _ _ _ => none
    | _ => chk_concat (map (illegalAssignment n') (children e))
    end
  end.
Definition checkIllegalAssignment (e : expr) : chk := illegalAssignment (height e) e.

(** checkNoIdemLast, endsWithIdem (checker.go:675-680, 792-801) *)
Definition checkNoIdemLast (e body : expr) : chk :=
  match body with
  | EBlock _ ss =>
    match ss with
    | [] => none
    | x :: _ =>
      let l := last ss x in
      if isIdem l
      then accept IdemNotAllowedLast l [("expression", AExpr (Some l)); ("container", AExpr (Some e))]%string
      else none
    end
  | _ => inr GoTypeAssert
  end.

(** checkParameterNameUniqueness (checker.go:682-692) *)
Fixpoint checkUnique (seen : list str) (ps : list expr) : chk :=
  match ps with
  | [] => none
  | (EParam _ n _ _ _ as q) :: ps' =>
    if mem_str n seen
    then accept DuplicateParameter q [("param"%string, AStr n)] +++ checkUnique seen ps'
    else checkUnique (n :: seen) ps'
  | _ :: _ => inr GoTypeAssert
  end.
Definition checkParameterNameUniqueness (ps : list expr) : chk := checkUnique [] ps.

(** checkQuery (checker.go:694-713) *)
Fixpoint checkQuery (e : expr) : chk :=
  match e with
  | EBin _ KComparison op _ _ =>
    if str_eqb op (lit "==") || str_eqb op (lit "!=") then none
    else accept IllegalQueryExpression e [("expression"%string, AExpr (Some e))]
  | EUn _ KParen x => checkQuery x
  | EUn _ KVariable _ | EQName _ _ | EInt _ _ _ | EFloat _ _ | EString _ _ | EBool _ _ => none
  | EBin _ (KAnd | KOr) _ l r => checkQuery l +++ checkQuery r
  | _ => accept IllegalQueryExpression e [("expression"%string, AExpr (Some e))]
  end.

(** checkRValue, checkRelation (checker.go:745-752, 715-722) *)
Fixpoint checkRValue (e : expr) : chk :=
  match e with
  | EUn _ _ x => checkRValue x
  | ECollect _ _ _ _ => accept NotRvalue e [("value"%string, AExpr (Some e))]
  | _ => if isDefinition e then accept NotRvalue e [("value"%string, AExpr (Some e))] else none
  end.
Definition checkRelation (e : expr) : chk :=
  match e with
  | ECollect _ _ _ _ | EBin _ KRelationship _ _ _ => none
  | _ => checkRValue e
  end.

(** checkReservedParams (checker.go:724-731) *)
Fixpoint checkReservedParams (c : expr) (ps : list expr) : chk :=
  match ps with
  | [] => none
  | EParam _ n _ _ _ :: ps' =>
    (if mem_str n (map lit reservedParameters)
     then accept ReservedParameter c [("param", AStr n); ("container", AExpr (Some c))]%string
     else none) +++ checkReservedParams c ps'
  | _ :: _ => inr GoTypeAssert
  end.

(** checkTypeRef, checkReturnType (checker.go:779-790, 739-743) *)
Definition checkTypeRef (f r : expr) : chk :=
  match (match r with EAccess _ o _ => o | _ => r end) with
  | EQRef _ n => checkFutureReservedWord r (toLower n)
  | _ => accept IllegalExpression r
           [("expression", AExpr (Some r)); ("feature", AStr (lit "a type reference"));
            ("container", AExpr (Some f))]%string
  end.
Definition checkReturnType (f : expr) (r : option expr) : chk :=
  match r with Some r => checkTypeRef f r | None => none end.

(** checkTop (checker.go:754-777), and ContainerOf (validator.go:109-119): the
    container of a path element is the next one, nil for the root *)
Fixpoint checkTop (e : expr) (up : path) : chk :=
  match up with
  | [] => none
  | c :: up' =>
    match c with
    | EDef _ (DClass _) _ _ _ | EProgram _ _ _ => none
    | EBlock _ _ =>
      let nested :=
        match e with
        | EFunc _ false _ _ _ _ | ETypeAlias _ _ _ | ETypeDef _ _ _ _ | ETypeMapping _ _ _ => true
        | _ => false
        end in
      if negb (match up' with c' :: _ => isProgram c' | [] => false end) && nested
      then accept NotAbsoluteTopLevel e [("value"%string, AExpr (Some e))]
      else checkTop e up'
    | _ => accept NotTopLevel e []
    end
  end.

(** checkNamedDefinition (checker.go:424-432) *)
Definition checkNamedDefinition (e : expr) (name : str) (ps : list expr) : chk :=
  checkTop e p
  +++ (if isClassrefDecl name then none
       else accept IllegalDefinitionName e [("name", AStr name); ("value", AExpr (Some e))]%string)
  +++ checkReservedTypeName e name
  +++ checkFutureReservedWord e name
  +++ checkParameterNameUniqueness ps.

(** ** The checks, by kind of node *)
(** checkAttributeOperation (checker.go:245-255) *)
Definition checkAttributeOperation (e : expr) (op name : str) : chk :=
  if str_eqb op (lit "+>") then
    match container with
    | Some (ECollect _ _ _ _) | Some (EResOverride _ _ _ _) => none
    | c => accept IllegalAttributeAppend e [("attr", AStr name); ("expression", AExpr c)]%string
    end
  else none.
(** checkAttributesOperation (checker.go:257-264) *)
Definition checkAttributesOperation (x : expr) : chk :=
  (match container with
   | Some c =>
     if isAbstractResource c
        || match c with ECollect _ _ _ _ | ECapMap _ _ _ _ _ => true | _ => false end
     then accept UnsupportedOperatorInContext c
            [("operator", AStr (lit "* =>")); ("value", AExpr (Some c))]%string
     else none
   | None => none
   end) +++ checkRValue x.
(** checkBlockExpression (checker.go:271-279): only the first such statement *)
Fixpoint checkBlock (ss : list expr) : chk :=
  match ss with
  | x :: ((_ :: _) as ss') =>
    if isIdem x then accept IdemExpressionNotLast x [("expression"%string, AExpr (Some x))]
    else checkBlock ss'
  | _ => none
  end.
(** checkCallNamedFunctionExpression (checker.go:281-297) *)
Definition checkCallNamed (e f : expr) : chk :=
  match f with
  | EQName _ _ | EQRef _ _ | EAccess _ (EQRef _ _) _ => none
  | _ => accept IllegalExpression f
           [("expression", AExpr (Some f)); ("feature", AStr (lit "function name"));
            ("container", AExpr (Some e))]%string
  end.
(** checkCapabilityMapping (checker.go:299-327) *)
Definition checkCapabilityMapping (e : expr) (cap : str) (component : expr) : chk :=
  let bad := accept IllegalExpression component
               [("expression", AExpr (Some component)); ("feature", AStr (lit "capability mapping"));
                ("container", AExpr (Some e))]%string in
  (match component with
   | EQRef _ _ => none
   | EQName _ n => accept IllegalClassref component [("name"%string, AStr n)]
   | EAccess _ (EQRef _ _) [(EString _ _ | EQName _ _ | EQRef _ _)] => none
   | _ => bad
   end)
  +++ (if isClassrefExt cap then none else accept IllegalClassref e [("name"%string, AStr cap)]).
(** checkCaseExpression (checker.go:329-343) *)
Fixpoint dup_defaults (c : expr) (seen : bool) (vs : list expr) : chk * bool :=
  match vs with
  | [] => (none, seen)
  | v :: vs' =>
    if isDefault v then
      let (r, b) := dup_defaults c true vs' in
      ((if seen then accept DuplicateDefault v [("container"%string, AExpr (Some c))] else none) +++ r, b)
    else dup_defaults c seen vs'
  end.
Fixpoint case_defaults (c : expr) (seen : bool) (os : list expr) : chk :=
  match os with
  | [] => none
  | ECaseOption _ vs _ :: os' =>
    let (r, b) := dup_defaults c seen vs in r +++ case_defaults c b os'
  | _ :: _ => inr GoTypeAssert
  end.
(** checkCollectExpression (checker.go:351-356) *)
Definition checkCollect (e t : expr) : chk :=
  if isQRef t then none
  else accept IllegalExpression t
         [("expression", AExpr (Some t)); ("feature", AStr (lit "type name"));
          ("container", AExpr (Some e))]%string.
(** checkEppExpression (checker.go:358-364) *)
Definition checkEpp : chk :=
  match container with
  | Some (ELambda _ ps _ _ as l) => checkNoCapture l ps +++ checkParameterNameUniqueness ps
  | _ => none
  end.
(** checkLiteralHash (checker.go:393-409).  The key that is looked up: a
    literal, or the text of a list or hash key's PN. *)
Definition hash_key (k : expr) : option lv + psite :=
  match toLiteral k with
  | LPanic => inr GoTypeAssert
  | LNot => inl None
  | LOk v =>
    match k with
    | EList _ _ | EHash _ _ =>
      match toPN k with Some q => inl (Some (LvStr (format q))) | None => inr GoTypeAssert end
    | _ => if hashable v then inl (Some v) else inr GoTypeAssert
    end
  end.
Fixpoint checkKeys (seen : list lv) (es : list expr) : chk :=
  match es with
  | [] => none
  | (EKeyed _ k _ as entry) :: es' =>
    match hash_key k with
    | inr q => inr q
    | inl None => checkKeys seen es'
    | inl (Some v) =>
      if existsb (lv_eqb v) seen then
        match node_text text (epos k) with
        | inl t => accept DuplicateKey entry [("key"%string, AStr t)] +++ checkKeys seen es'
        | inr _ => inr GoSliceBounds
        end
      else checkKeys (v :: seen) es'
    end
  | _ :: _ => inr GoTypeAssert
  end.
(** checkNamedAccessExpression (checker.go:417-422) *)
Definition checkNamedAccess (r : expr) : chk :=
  match r with
  | EQName _ _ => none
  | _ => accept IllegalExpression r
           [("expression", AExpr (Some r)); ("feature", AStr (lit "method name"));
            ("container", AExpr container)]%string
  end.
(** checkParameter (checker.go:440-449) *)
Definition checkParameter (e : expr) (name : str) (value : option expr) : chk :=
  (if startsWithNumber name then accept IllegalNumericParameter e [("name"%string, AStr name)]
   else if isParamName name then none
   else accept IllegalParameterName e [("name"%string, AStr name)])
  +++ match value with Some v => checkIllegalAssignment v | None => none end.
(** checkResourceBody (checker.go:470-481) *)
Fixpoint checkResourceBody (seen : bool) (ops : list expr) : chk :=
  match ops with
  | [] => none
  | (EAttrsOp _ _ as o) :: ops' =>
    (if seen then accept MultipleAttributesUnfold o [] else none) +++ checkResourceBody true ops'
  | _ :: ops' => checkResourceBody seen ops'
  end.
Definition notRegular (f : rform) : bool := match f with Regular => false | _ => true end.
(** checkSelectorExpression (checker.go:518-531) *)
Fixpoint sel_defaults (c : expr) (seen : bool) (ss : list expr) : chk :=
  match ss with
  | [] => none
  | (ESelEntry _ m _ as se) :: ss' =>
    if isDefault m then
      (if seen then accept DuplicateDefault se [("container"%string, AExpr (Some c))] else none)
      +++ sel_defaults c true ss'
    else sel_defaults c seen ss'
  | _ :: _ => inr GoTypeAssert
  end.
(** checkTypeMapping (checker.go:545-580), isPatternWithReplacement, isTypeRef
    (checker.go:836-854) *)
Definition isPatternWithReplacement (e : expr) : bool :=
  match e with EList _ [ERegexp _ _; EString _ _] => true | _ => false end.
Definition isTypeRef (e : expr) : bool :=
  isQRef (match e with EAccess _ o _ => o | _ => e end).
Definition checkTypeMapping (e t m : expr) : chk :=
  checkTop e p +++
  let single := accept IllegalSingleTypeMapping e [("expression"%string, AExpr (Some e))] in
  let regexp := accept IllegalRegexpTypeMapping e [("expression"%string, AExpr (Some e))] in
  match t with
  | EAccess _ (EQRef _ n) keys =>
    if str_eqb n (lit "Runtime") then
      let pattern := match keys with [_; k] => isPatternWithReplacement k | _ => false end in
      if isPatternWithReplacement m then if pattern then none else single
      else if isTypeRef m then if pattern then regexp else none
      else if pattern then regexp else single
    else accept UnsupportedExpression e [("expression"%string, AExpr (Some e))]
  | _ => accept UnsupportedExpression e [("expression"%string, AExpr (Some e))]
  end.

(** Check with the methods of basicChecker (checker.go:131-590) *)
Definition check_basic (e : expr) : chk :=
  match e with
  | EStep _ _ _ _ _ => accept WorkflowOperationNotSupported e [("operation"%string, AExpr (Some e))]
  | EDef _ DApplication _ _ _ => none
  | EBin _ KAssignment op l _ =>
    if str_eqb op (lit "=") then checkAssign l
    else accept AppendsDeletesNoLongerSupported e [("operator"%string, AStr op)]
  | EAttrOp _ op n _ => checkAttributeOperation e op n
  | EAttrsOp _ x => checkAttributesOperation x
  | EBlock _ ss => checkBlock ss
  | ECallNamed _ _ f _ _ => checkCallNamed e f
  | ECapMap _ _ cap c _ => checkCapabilityMapping e cap c
  | ECase _ t os => checkRValue t +++ case_defaults e false os
  | ECaseOption _ vs _ => chk_concat (map checkRValue vs)
  | ECollect _ t _ _ => checkCollect e t
  | EEpp _ _ _ => checkEpp
  | EFunc _ false n ps _ r => checkNamedDefinition e n ps +++ checkCaptureLast ps +++ checkReturnType e r
  | EFunc _ true _ _ _ _ => none
  | EDef _ (DClass _) n ps b | EDef _ DDefine n ps b =>
    checkNamedDefinition e n ps +++ checkNoCapture e ps +++ checkReservedParams e ps
    +++ checkNoIdemLast e b
  | EIf _ _ t _ _ => checkRValue t
  | EKeyed _ k v => checkRValue k +++ checkRValue v
  | ELambda _ ps _ r => checkCaptureLast ps +++ checkReturnType e r
  | EHash _ es => checkKeys [] es
  | EList _ es => chk_concat (map checkRValue es)
  | EBin _ KNamedAccess _ _ r => checkNamedAccess r
  | ENode _ _ hs b => checkHostname hs +++ checkTop e p +++ checkNoIdemLast e b
  | EParam _ n v _ _ => checkParameter e n v
  | EBin _ KRelationship _ l r => checkRelation l +++ checkRelation r
  | EReserved _ w future =>
    accept (if future then FutureReservedWord else ReservedWord) e [("word"%string, AStr w)]
  | EResBody _ _ ops => checkResourceBody false ops
  | EResDefaults _ f _ _ | EResOverride _ f _ _ =>
    if notRegular f then accept NotVirtualizable e [] else none
  | EResource _ f t _ =>
    if notRegular f && match t with EQName _ n => str_eqb n (lit "class") | _ => false end
    then accept NotVirtualizable e [] else none
  | ESelEntry _ m _ => checkRValue m
  | ESelector _ l ss => checkRValue l +++ sel_defaults e false ss
  | ESite _ _ => none
  | ETypeAlias _ n t =>
    checkTop e p
    +++ (if isClassrefExtDecl n then none
         else accept IllegalDefinitionName e [("name", AStr n); ("value", AExpr (Some e))]%string)
    +++ checkReservedTypeName e n
    +++ checkTypeRef e t
  | ETypeMapping _ t m => checkTypeMapping e t m
  | EBin _ _ _ l r => checkRValue l +++ checkRValue r
  | EQuery _ _ x => checkQuery x
  | EUn _ _ x => checkRValue x
  | _ => none
  end.

(** The overriding methods of tasksChecker and workflowChecker
    (tasks_checker.go:22-68, workflow_checker.go:22-47) *)
Inductive checker : Set := Basic | Tasks | Workflow.
Definition catalogOperation (e : expr) : bool :=
  match e with
  | EDef _ _ _ _ _ | ECapMap _ _ _ _ _ | ECollect _ _ _ _ | ENode _ _ _ _
  | EBin _ KRelationship _ _ _ | EResDefaults _ _ _ _ | EResource _ _ _ _
  | EResOverride _ _ _ _ | ESite _ _ => true
  | _ => false
  end.
Definition check (k : checker) (e : expr) : chk :=
  match k with
  | Basic => check_basic e
  | Tasks | Workflow =>
    match k, e with
    | Workflow, EStep _ _ _ _ _ => none
    | _, _ =>
      if catalogOperation e
      then accept CatalogOperationNotSupported e [("operation"%string, AExpr (Some e))]
      else check_basic e
    end
  end.
End Checks.

(** Validate (validator.go:155-167) *)
Definition validate (k : checker) (text : str) (s : strictness) (e : expr) : chk :=
  check text s [] k e
  +++ chk_concat (map (fun v => check text s (fst v) k (snd v)) (allContents [] e)).
(** ValidatePuppet, ValidateTasks, ValidateWorkflow (validator.go:135-153) *)
Definition validatePuppet text s e := validate Basic text s e.
Definition validateTasks text e := validate Tasks text StrictError e.
Definition validateWorkflow text e := validate Workflow text StrictError e.
