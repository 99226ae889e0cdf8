(** * Parser: parser/parser.go

    Every Go function that takes part in the recursion is a tag of [fn]
    (Lexer.v) or a definition in the section below that calls tags through
    [rec].  [body] gives each tag its Go function and [run] ties the knot on
    fuel; running out of fuel is the separate outcome [Fuel]. *)
From Verif Require Import Base Float Tokens Ast Ctx Locator Lexer ToPN.

(** statementCalls (parser.go:30-49) *)
Definition statementCalls : list string :=
  ["require"; "realize"; "include"; "contain"; "tag";
   "debug"; "info"; "notice"; "warning"; "err";
   "fail"; "import"; "break"; "next"; "return"]%string.
Definition isStatementCall (name : str) : bool := mem_str name (map lit statementCalls).

(** workflowStyles (parser.go:51-56) *)
Definition workflowStyle (name : str) : option style :=
  if str_eqb name (lit "action") then Some SAction
  else if str_eqb name (lit "resource") then Some SResource
  else if str_eqb name (lit "stateHandler") then Some SStateHandler
  else if str_eqb name (lit "workflow") then Some SWorkflow
  else None.

(** tokenString (parser.go:276-284) *)
Definition tokenString : M str :=
  v <- ask c_val ;;
  match v with
  | VNil => ask (fun c => tokenMap (c_tok c))
  | VStr s => ret s
  | _ => throw (GoPanic GoString)
  end.

(** assertToken (parser.go:269-274) *)
Definition assertToken (t : tok) : M unit :=
  cur <- curTok ;;
  if tok_eqb cur t then ret tt
  else
    modify (fun c => with_pos (c_tsp c) c) ;;
    issue2 PARSE_EXPECTED_TOKEN [("expected", tokenMap t); ("actual", tokenMap cur)]%string.

(** [ctx.SetPos(ctx.tokenStartPos)] *)
Definition toTokenStart : M unit := modify (fun c => with_pos (c_tsp c) c).
Definition tokStart : M Z := ask c_tsp.

(** The node position [(start, ctx.Pos()-start)] *)
Definition span (start : Z) : M pos := ask (fun c => mkpos start (c_pos c - start)).

Definition unexpectedToken {A} : M A :=
  t <- curTok ;; issue2 LEX_UNEXPECTED_TOKEN [("token"%string, tokenMap t)].

(** addDefinition (parser.go:1995-1998) *)
Definition addDefinition (e : expr) : M expr :=
  modify (fun c => with_defs (c_defs c ++ [e]) c) ;; ret e.

(** the name stack (parser.go:1427, 1501, 1648, 1664, 1875, 1900) *)
Definition pushName (n : str) : M unit := modify (fun c => with_names (c_names c ++ [n]) c).
Definition popName : M unit := fun c =>
  match c_names c with
  | [] => Err (GoPanic GoNames) c
  | _ => Ok tt (with_names (removelast (c_names c)) c)
  end.
(** qualifiedName (parser.go:1934-1936) *)
Definition qualifiedName (n : str) : M str := ask (fun c => join (lit "::") (c_names c ++ [n])).

(** keyword (parser.go:1924-1932) *)
Definition keyword (t : tok) : option str :=
  if tok_eqb t TBoolean then None
  else match kw_lookup (tokenMap t) with Some _ => Some (tokenMap t) | None => None end.

(** convertLhsToCall (parser.go:478-485); [ne] is a NamedAccess node *)
Fixpoint convertLhsToCall (ne : expr) (args : list expr) (lambda : option expr) (p : pos) : expr :=
  match ne with
  | EBin q KNamedAccess _ lhs rhs =>
    let lhs' := match lhs with
                | EBin r KNamedAccess _ _ _ => convertLhsToCall lhs [] None r
                | _ => lhs
                end in
    ECallMethod p true (EBin q KNamedAccess [] lhs' rhs) args lambda
  | _ => ne
  end.

(** ** transformCalls (parser.go:288-341) *)
Definition set_rval (b : bool) (e : expr) : expr :=
  match e with ECallNamed p _ f args l => ECallNamed p b f args l | _ => e end.

(** The statements after a transformation round: [memo] is the pending
    statement.  The boolean tells whether the loop ran to its end (and not
    through the early return, parser.go:313-315): only then are comma lists
    looked for. *)
Fixpoint transform_from (memo : expr) (es : list expr) : list expr * bool :=
  match es with
  | [] => ([set_rval false memo], true)
  | e :: es' =>
    match memo with
    | EQName p n =>
      if isStatementCall n then
        let args := match e with ECommaList _ l => l | _ => [set_rval true e] end in
        let cn := ECallNamed (mkpos (p_off p) (byteOffset e + byteLength e - p_off p)) false memo args None in
        match es' with
        | [] => ([cn], false)
        | memo' :: es'' => let (r, b) := transform_from memo' es'' in (cn :: r, b)
        end
      else let (r, b) := transform_from e es' in (memo :: r, b)
    | _ => let (r, b) := transform_from e es' in (set_rval false memo :: r, b)
    end
  end.

Definition of_sum {A} (x : A + err) : M A := match x with inl a => ret a | inr e => throw e end.

Fixpoint check_commas (es : list expr) : M unit :=
  match es with
  | [] => ret tt
  | ECommaList _ l :: _ =>
    match l with
    | [] => throw (GoPanic GoElems)
    | f :: _ =>
      let p := byteOffset f + byteLength f in
      text <- ask c_text ;;
      line <- of_sum (lineForOffset text p) ;;
      col <- of_sum (posOnLine text p) ;;
      throw (IssueAt PARSE_EXTRANEOUS_COMMA line col)
    end
  | _ :: es' => check_commas es'
  end.

Definition transformCalls (es : list expr) : M (list expr) :=
  match es with
  | [] => ret []
  | memo :: es' =>
    let (r, complete) := transform_from memo es' in
    (if complete then check_commas r else ret tt) ;;
    ret r
  end.

(** ** joinHashEntries (parser.go:1545-1587) *)
Definition isKeyedEntry (e : expr) : bool := match e with EKeyed _ _ _ => true | _ => false end.
Definition newHashWithoutBraces (entries : list expr) : expr :=
  match entries with
  | [] => EHash (mkpos 0 0) []   (* not reached: entries is never empty *)
  | f :: _ =>
    let l := last entries f in
    EHash (mkpos (byteOffset f) (byteOffset l + byteLength l - byteOffset f)) entries
  end.
(** [collector] is nil or not empty *)
Fixpoint processHashEntries (collector : list expr) (es : list expr) : list expr :=
  let flush := match collector with [] => [] | _ => [newHashWithoutBraces collector] end in
  match es with
  | [] => flush
  | e :: es' =>
    if isKeyedEntry e then processHashEntries (collector ++ [e]) es'
    else flush ++ e :: processHashEntries [] es'
  end.
Definition joinHashEntries (es : list expr) : list expr :=
  if existsb isKeyedEntry es then processHashEntries [] es else es.

(** ** convertToDeferred (parser.go:1345-1387) *)
Definition variableName (e : expr) : str :=     (* VariableExpression.Name, expression.go:2033-2039 *)
  match e with EQName _ n => n | _ => [] end.
Definition deferredNew (p : pos) (args : list expr) : expr :=
  let z := mkpos (p_off p) 0 in
  ECallMethod p true (EBin z KNamedAccess [] (EQRef z (lit "Deferred")) (EQName z (lit "new"))) args None.
Fixpoint convertToDeferred (e : expr) : expr :=
  match e with
  | EList p es => EList p (map convertToDeferred es)
  | EHash p es => EHash p (map convertToDeferred es)
  | EKeyed p k v => EKeyed p (convertToDeferred k) (convertToDeferred v)
  | ECallNamed p _ f args _ =>
    let z := mkpos (p_off p) 0 in
    match f with
    | EQName _ n => deferredNew p [EString p n; EList z (map convertToDeferred args)]
    | EQRef _ _ => deferredNew p [EQName z (lit "new"); EList z (f :: map convertToDeferred args)]
    | _ => e
    end
  | EUn p KVariable x => deferredNew p [EString p ("$"%ch :: variableName x)]
  | _ => e
  end.

(** ** Binary operator levels (parser.go:499-632) *)
Definition next_level (l : level) : option level :=
  match l with
  | LOr => Some LAnd | LAnd => Some LCompare | LCompare => Some LEqual | LEqual => Some LShift
  | LShift => Some LAdd | LAdd => Some LMul | LMul => Some LMatch | LMatch => Some LIn
  | LIn => None
  end.
(** the kind of node a token makes at a level *)
Definition level_op (l : level) (t : tok) : option bkind :=
  match l, t with
  | LOr, TOr => Some KOr
  | LAnd, TAnd => Some KAnd
  | LCompare, (TLess | TLessEqual | TGreater | TGreaterEqual) => Some KComparison
  | LEqual, (TEqual | TNotEqual) => Some KComparison
  | LShift, (TLshift | TRshift) => Some KArithmetic
  | LAdd, (TAdd | TSubtract) => Some KArithmetic
  | LMul, (TMultiply | TDivide | TRemainder) => Some KArithmetic
  | LMatch, (TMatch | TNotMatch) => Some KMatch
  | LIn, TIn => Some KIn
  | _, _ => None
  end.
(** or, and, in do not ask for the operator's text *)
Definition level_op_text (k : bkind) : M str :=
  match k with KOr | KAnd | KIn => ret [] | _ => tokenString end.

Section Rec.
Variable rec : forall A, fn A -> M A.
Local Notation nextToken := (rec FNextToken).
Local Notation relationship := (rec FRelationship).
Local Notation expression := (rec FExpression).
Local Notation atomExpression := (rec FAtom).
Local Notation primaryExpression := (rec FPrimary).
Local Notation expressions e p := (rec (FExpressions e p [])).
Local Notation parse e s := (rec (FParse e s)).
Local Notation attributeOperations := (rec (FAttrOps [])).

(** parse (parser.go:245-267) *)
Definition parse_body (e : tok) (single : bool) : M expr :=
  '(_, start) <- skipWhite false ;;
  setPos start ;;
  if single then
    cur <- curTok ;;
    if tok_eqb cur e then ret (EUndef (mkpos start 0))
    else x <- relationship ;; assertToken e ;; ret x
  else
    es <- rec (FStatements e []) ;;
    ss <- transformCalls es ;;
    p <- span start ;;
    ret (EBlock p ss).

(** syntacticStatement (parser.go:363-378) and its loop *)
Definition commas_body (acc : list expr) : M (list expr) :=
  cur <- curTok ;;
  if tok_eqb cur TComma then
    nextToken ;;
    x <- relationship ;;
    rec (FCommas (acc ++ [x]))
  else ret acc.
Definition syntacticStatement : M expr :=
  e <- relationship ;;
  args <- rec (FCommas [e]) ;;
  p <- span (byteOffset e) ;;
  match args with
  | [_] => ret e
  | _ => ret (ECommaList p args)
  end.
(** the loop of parse (parser.go:259-264) *)
Definition statements_body (e : tok) (acc : list expr) : M (list expr) :=
  cur <- curTok ;;
  if tok_eqb cur e then ret acc
  else
    x <- syntacticStatement ;;
    cur <- curTok ;;
    (if tok_eqb cur TSemicolon then nextToken else ret tt) ;;
    rec (FStatements e (acc ++ [x])).

(** handleKeyword(ctx.relationship) (parser.go:398-410), which is also
    hashEntry (parser.go:394-396) *)
Definition handleKeyword : M expr :=
  cur <- curTok ;;
  match cur with
  | TType | TFunction | TPlan | TApplication | TConsumes | TProduces | TSite =>
    s <- tokenString ;;
    start <- tokStart ;;
    p <- span start ;;
    nextToken ;;
    cur <- curTok ;;
    if tok_eqb cur TLp then rec (FCall (EQName p s)) else ret (EQName p s)
  | _ => relationship
  end.
(** argument, collectionEntry (parser.go:380-392) *)
Definition argument : M expr :=
  e <- handleKeyword ;;
  cur <- curTok ;;
  if tok_eqb cur TFarrow then
    nextToken ;;
    v <- handleKeyword ;;
    p <- span (byteOffset e) ;;
    ret (EKeyed p e v)
  else ret e.
(** keyedEntry (parser.go:638-646) *)
Definition keyedEntry : M expr :=
  key <- handleKeyword ;;
  cur <- curTok ;;
  if negb (tok_eqb cur TFarrow) then issue PARSE_EXPECTED_FARROW_AFTER_KEY
  else
    nextToken ;;
    value <- handleKeyword ;;
    p <- span (byteOffset key) ;;
    ret (EKeyed p key value).
(** selectorEntry (parser.go:934-940) *)
Definition selectorEntry : M expr :=
  start <- tokStart ;;
  lhs <- expression ;;
  assertToken TFarrow ;;
  nextToken ;;
  rhs <- expression ;;
  p <- span start ;;
  ret (ESelEntry p lhs rhs).

(** identifier (parser.go:1123-1138); [None]: not an identifier *)
Definition identifier : M (option str) :=
  start <- tokStart ;;
  cur <- curTok ;;
  if tok_eqb cur TIdentifier then
    name <- tokenString ;; nextToken ;; ret (Some name)
  else
    match keyword cur with
    | Some word => nextToken ;; ret (Some word)
    | None => setPos start ;; ret None
    end.
(** identifierExpr (parser.go:1140-1156): the length is start-Pos() *)
Definition identifierExpr : M (option (pos * str)) :=
  start <- tokStart ;;
  cur <- curTok ;;
  p <- ask (fun c => mkpos start (start - c_pos c)) ;;
  if tok_eqb cur TIdentifier then
    name <- tokenString ;; nextToken ;; ret (Some (p, name))
  else
    match keyword cur with
    | Some word => nextToken ;; ret (Some (p, word))
    | None => setPos start ;; ret None
    end.

(** typeName, parameterType (parser.go:1845-1869) *)
Definition typeName : M (option expr) :=
  cur <- curTok ;;
  if tok_eqb cur TTypeName then
    s <- tokenString ;;
    start <- tokStart ;;
    p <- span start ;;
    nextToken ;;
    ret (Some (EQRef p s))
  else ret None.
Definition arrayExpression : M (list expr) :=           (* parser.go:634-636 *)
  es <- expressions TRb PArgument ;; ret (joinHashEntries es).
Definition parameterType_body : M expr :=
  start <- tokStart ;;
  tn <- typeName ;;
  match tn with
  | None => issue PARSE_EXPECTED_TYPE_NAME
  | Some tn =>
    cur <- curTok ;;
    if tok_eqb cur TLb then
      nextToken ;;
      typeArgs <- arrayExpression ;;
      p <- span start ;;
      nextToken ;;
      ret (EAccess p tn typeArgs)
    else ret tn
  end.

(** parameterList, lambdaParameterList, returnParameters
    (parser.go:1747-1760, 1793-1801) *)
Definition parameterListOf (prod : producer) : M (list expr) :=
  cur <- curTok ;;
  match cur with
  | TLp | TWslp => nextToken ;; expressions TRp prod
  | _ => ret []
  end.
Definition parameterList : M (list expr) := parameterListOf PParameter.
Definition returnParameters : M (list expr) := parameterListOf PReturnParameter.
Definition lambdaParameterList : M (list expr) := nextToken ;; expressions TPipeEnd PParameter.

(** the type in front of a parameter, and its name (parser.go:1765-1784,
    1815-1827) *)
Definition optParameterType : M (option expr) :=
  cur <- curTok ;;
  if tok_eqb cur TTypeName then t <- rec FParameterType ;; ret (Some t) else ret None.
Definition parameterName : M str :=
  cur <- curTok ;;
  if negb (tok_eqb cur TVariable) then issue PARSE_EXPECTED_VARIABLE
  else
    v <- ask c_val ;;
    match v with
    | VStr s => nextToken ;; ret s
    | _ => issue PARSE_EXPECTED_VARIABLE
    end.
(** parameter (parser.go:1762-1791) *)
Definition parameter : M expr :=
  start <- tokStart ;;
  typ <- optParameterType ;;
  cur <- curTok ;;
  let rest := tok_eqb cur TMultiply in
  (if rest then nextToken else ret tt) ;;
  name <- parameterName ;;
  cur <- curTok ;;
  value <- (if tok_eqb cur TAssign then nextToken ;; e <- expression ;; ret (Some e) else ret None) ;;
  p <- span start ;;
  ret (EParam p name value typ rest).
(** attributeAlias (parser.go:1803-1809) *)
Definition attributeAlias : M expr :=
  s <- tokStart ;;
  i <- identifier ;;
  match i with
  | Some i => ret (EString (mkpos s (zlen i)) i)
  | None => issue PARSE_EXPECTED_ATTRIBUTE_NAME
  end.
(** returnParameter (parser.go:1811-1843): the array's length is ps-Pos() *)
Definition returnParameter : M expr :=
  start <- tokStart ;;
  typ <- optParameterType ;;
  name <- parameterName ;;
  cur <- curTok ;;
  value <- (if tok_eqb cur TAssign then
              nextToken ;;
              cur <- curTok ;;
              match cur with
              | TLp | TWslp =>
                ps <- tokStart ;;
                nextToken ;;
                es <- expressions TRp PAttributeAlias ;;
                p <- ask (fun c => mkpos ps (ps - c_pos c)) ;;
                nextToken ;;
                ret (Some (EList p es))
              | _ => e <- attributeAlias ;; ret (Some e)
              end
            else ret None) ;;
  p <- span start ;;
  ret (EParam p name value typ false).

(** stepProperty (parser.go:1301-1332) *)
Definition stepProperty : M expr :=
  start <- getPos ;;
  key <- identifierExpr ;;
  match key with
  | None => issue PARSE_EXPECTED_ATTRIBUTE_NAME
  | Some (kp, name) =>
    cur <- curTok ;;
    if negb (tok_eqb cur TFarrow) then issue PARSE_EXPECTED_FARROW_AFTER_KEY
    else
      nextToken ;;
      vstart <- getPos ;;
      value <- (if str_eqb name (lit "parameters") then
                  ps <- parameterList ;; p <- span vstart ;; nextToken ;; ret (EList p ps)
                else if str_eqb name (lit "returns") then
                  ps <- returnParameters ;; p <- span vstart ;; nextToken ;; ret (EList p ps)
                else handleKeyword) ;;
      p <- span start ;;
      ret (EKeyed p (EQName kp name) value)
  end.
(** stateAttribute (parser.go:1389-1403) *)
Definition stateAttribute : M expr :=
  start <- tokStart ;;
  name <- identifierExpr ;;
  match name with
  | None => issue PARSE_EXPECTED_ATTRIBUTE_NAME
  | Some (kp, name) =>
    cur <- curTok ;;
    if tok_eqb cur TFarrow then
      nextToken ;;
      v <- expression ;;
      p <- span start ;;
      ret (EKeyed p (EQName kp name) v)
    else issue PARSE_INVALID_ATTRIBUTE
  end.

(** expressions (parser.go:343-361): one round *)
Definition produce (p : producer) : M expr :=
  match p with
  | PArgument => argument
  | PKeyedEntry => keyedEntry
  | PSelectorEntry => selectorEntry
  | PExpression => expression
  | PStepProperty => stepProperty
  | PStateAttribute => stateAttribute
  | PParameter => parameter
  | PReturnParameter => returnParameter
  | PAttributeAlias => attributeAlias
  end.
Definition expressions_body (e : tok) (p : producer) (acc : list expr) : M (list expr) :=
  cur <- curTok ;;
  if tok_eqb cur e then ret acc
  else
    x <- produce p ;;
    cur <- curTok ;;
    if negb (tok_eqb cur TComma) then
      if negb (tok_eqb cur e) then
        toTokenStart ;;
        issue2 PARSE_EXPECTED_ONE_OF_TOKENS
          [("expected"%string,
            lit "'" ++ tokenMap TComma ++ lit "' or '" ++ tokenMap e ++ lit "'");
           ("actual"%string, tokenMap cur)]
      else ret (acc ++ [x])
    else nextToken ;; rec (FExpressions e p (acc ++ [x])).

(** relationship (parser.go:412-424) *)
Definition relationship_body : M expr := e <- rec FAssignment ;; rec (FRelLoop e).
Definition relLoop_body (e : expr) : M expr :=
  cur <- curTok ;;
  match cur with
  | TInEdge | TInEdgeSub | TOutEdge | TOutEdgeSub =>
    op <- tokenString ;;
    nextToken ;;
    r <- rec FAssignment ;;
    p <- span (byteOffset e) ;;
    rec (FRelLoop (EBin p KRelationship op e r))
  | _ => ret e
  end.

(** resource (parser.go:456-462) *)
Definition resource : M expr :=
  e <- expression ;;
  cur <- curTok ;;
  if tok_eqb cur TLc then rec (FResourceExpr (byteOffset e) e Regular) else ret e.
(** step (parser.go:440-454) *)
Definition step : M expr :=
  start <- getPos ;;
  e <- resource ;;
  wf <- option_on o_workflow ;;
  if wf : bool then
    match e with
    | EQName _ s =>
      match workflowStyle s with
      | Some st =>
        name <- identifier ;;
        match name with
        | Some name => rec (FStepDecl start st name true)
        | None => ret e
        end
      | None => ret e
      end
    | _ => ret e
    end
  else ret e.
(** assignment (parser.go:426-438) *)
Definition assignment_body : M expr := e <- step ;; rec (FAssignLoop e).
Definition assignLoop_body (e : expr) : M expr :=
  cur <- curTok ;;
  match cur with
  | TAssign | TAddAssign | TSubtractAssign =>
    op <- tokenString ;;
    nextToken ;;
    r <- rec FAssignment ;;
    p <- span (byteOffset e) ;;
    rec (FAssignLoop (EBin p KAssignment op e r))
  | _ => ret e
  end.

(** className (parser.go:1906-1922) *)
Definition className : M str :=
  cur <- curTok ;;
  match cur with
  | TTypeName | TIdentifier => name <- tokenString ;; nextToken ;; ret name
  | TString | TConcatenatedString => toTokenStart ;; issue PARSE_QUOTED_NOT_VALID_NAME
  | TClass => toTokenStart ;; issue PARSE_CLASS_NOT_VALID_HERE
  | _ => toTokenStart ;; issue PARSE_EXPECTED_CLASS_NAME
  end.

(** [assertToken(tokenLc); nextToken(); x := parse(tokenRc, false); nextToken()] *)
Definition braces : M expr :=
  assertToken TLc ;;
  nextToken ;;
  b <- parse TRc false ;;
  nextToken ;;
  ret b.

(** capabilityMapping (parser.go:1938-1956) *)
Definition capabilityMapping (component : expr) (kind : str) : M expr :=
  start <- tokStart ;;
  nextToken ;;
  capName <- className ;;
  assertToken TLc ;;
  nextToken ;;
  mappings <- attributeOperations ;;
  assertToken TRc ;;
  nextToken ;;
  component' <- (match component with
                 | EReserved q w _ => n <- qualifiedName w ;; ret (EQName q n)
                 | _ => ret component
                 end) ;;
  cn <- qualifiedName capName ;;
  p <- span start ;;
  addDefinition (ECapMap p kind cn component' mappings).

(** expression (parser.go:464-476) and selectExpression (parser.go:487-497) *)
Definition expression_body : M expr :=
  e <- rec (FLevel LOr) ;;
  e <- rec (FSelectLoop e) ;;
  cur <- curTok ;;
  match cur with
  | TProduces | TConsumes =>
    capToken <- tokenString ;;
    match e with
    | EQName _ _ | EQRef _ _ | EReserved _ _ _ | EAccess _ _ _ => capabilityMapping e capToken
    | _ => ret e
    end
  | _ => ret e
  end.
(** selectorsExpression (parser.go:916-932) *)
Definition selectorsExpression (test : expr) : M expr :=
  nextToken ;;
  cur <- curTok ;;
  if tok_eqb cur TSelc then
    nextToken ;;
    ss <- expressions TRc PSelectorEntry ;;
    p <- span (byteOffset test) ;;
    nextToken ;;
    ret (ESelector p test ss)
  else
    s <- selectorEntry ;;
    p <- span (byteOffset test) ;;
    ret (ESelector p test [s]).
Definition selectLoop_body (e : expr) : M expr :=
  cur <- curTok ;;
  if tok_eqb cur TQmark then e' <- selectorsExpression e ;; rec (FSelectLoop e') else ret e.

(** orExpression ... inExpression (parser.go:499-632) *)
Definition level_operand (l : level) : M expr :=
  match next_level l with Some l' => rec (FLevel l') | None => rec FUnary end.
Definition level_body (l : level) : M expr := e <- level_operand l ;; rec (FLevelLoop l e).
Definition levelLoop_body (l : level) (e : expr) : M expr :=
  cur <- curTok ;;
  match level_op l cur with
  | Some k =>
    op <- level_op_text k ;;
    nextToken ;;
    r <- level_operand l ;;
    p <- span (byteOffset e) ;;
    rec (FLevelLoop l (EBin p k op e r))
  | None => ret e
  end.

(** unaryExpression (parser.go:652-704) *)
Definition unary_node (k : ukind) (start : Z) (operand : M expr) : M expr :=
  nextToken ;; e <- operand ;; p <- span start ;; ret (EUn p k e).
Definition signed_number (start : Z) : M expr :=
  e <- primaryExpression ;; p <- span start ;; ret (set_pos p e).
Definition unary_body : M expr :=
  unaryStart <- tokStart ;;
  cur <- curTok ;;
  match cur with
  | TSubtract =>
    '(c, _) <- peek ;;
    if isDecimalDigit c then
      nextToken ;;
      cur <- curTok ;;
      v <- ask c_val ;;
      (match tok_eqb cur TInteger, v with
       | true, VInt z => settokenValue cur (VInt (- z))
       | false, VFloat f => settokenValue cur (VFloat (f64_neg f))
       | _, _ => throw (GoPanic GoTypeAssert)
       end) ;;
      signed_number unaryStart
    else unary_node KUnaryMinus unaryStart primaryExpression
  | TAdd =>
    '(c, _) <- peek ;;
    if isDecimalDigit c then nextToken ;; signed_number unaryStart
    else issue2 LEX_UNEXPECTED_TOKEN [("token"%string, lit "+")]
  | TNot => unary_node KNot unaryStart (rec FUnary)
  | TMultiply => unary_node KUnfold unaryStart (rec FUnary)
  | TAt | TAtat =>
    nextToken ;;
    e <- primaryExpression ;;
    assertToken TLc ;;
    rec (FResourceExpr unaryStart e (if tok_eqb cur TAtat then Exported else Virtual))
  | _ => primaryExpression
  end.

(** collectExpression (parser.go:1158-1195) *)
Definition collectQuery : M expr :=
  queryStart <- tokStart ;;
  cur <- curTok ;;
  let virtual := tok_eqb cur TLcollect in
  let close := if virtual then TRcollect else TRrcollect in
  nextToken ;;
  cur <- curTok ;;
  q <- (if tok_eqb cur close then
          ts <- tokStart ;;
          ret (ENop (if virtual then mkpos ts 0 else mkpos queryStart (ts - queryStart)))
        else x <- expression ;; assertToken close ;; ret x) ;;
  nextToken ;;
  p <- span queryStart ;;
  ret (EQuery p (negb virtual) q).
Definition collectExpression (lhs : expr) : M expr :=
  query <- collectQuery ;;
  cur <- curTok ;;
  ops <- (if negb (tok_eqb cur TLc) then ret []
          else
            nextToken ;;
            ops <- attributeOperations ;;
            assertToken TRc ;;
            nextToken ;;
            ret ops) ;;
  p <- span (byteOffset lhs) ;;
  ret (ECollect p lhs query ops).

(** lambda (parser.go:1527-1543) *)
Definition optReturnType : M (option expr) :=     (* parser.go:1532-1535 and alike *)
  cur <- curTok ;;
  if tok_eqb cur TRshift then nextToken ;; t <- rec FParameterType ;; ret (Some t) else ret None.
Definition lambda : M expr :=
  start <- tokStart ;;
  ps <- lambdaParameterList ;;
  nextToken ;;
  rt <- optReturnType ;;
  assertToken TLc ;;
  nextToken ;;
  b <- parse TRc false ;;
  p <- span start ;;
  nextToken ;;
  ret (ELambda p ps b rt).

(** callFunctionExpression (parser.go:1260-1279) and arguments
    (parser.go:1589-1591) *)
Definition call_body (functor : expr) : M expr :=
  let start := byteOffset functor in
  cur <- curTok ;;
  '(args, end_) <- (if negb (tok_eqb cur TPipe) then
                      nextToken ;;
                      es <- expressions TRp PArgument ;;
                      e <- getPos ;;
                      nextToken ;;
                      ret (joinHashEntries es, e)
                    else ret ([], start + byteLength functor)) ;;
  cur <- curTok ;;
  '(block, end_) <- (if tok_eqb cur TPipe then
                       b <- lambda ;; ret (Some b, byteOffset b + byteLength b)
                     else ret (None, end_)) ;;
  let p := mkpos start (end_ - start) in
  match functor with
  | EBin _ KNamedAccess _ _ _ => ret (convertLhsToCall functor args block p)
  | _ => ret (ECallNamed p true functor args block)
  end.

(** primaryExpression (parser.go:706-746) *)
Definition primary_body : M expr := e <- atomExpression ;; rec (FPrimaryLoop e).
Definition primaryLoop_body (e : expr) : M expr :=
  cur <- curTok ;;
  match cur with
  | TLp | TPipe => e' <- rec (FCall e) ;; rec (FPrimaryLoop e')
  | TLcollect | TLlcollect => e' <- collectExpression e ;; rec (FPrimaryLoop e')
  | TLb =>
    nextToken ;;
    params <- arrayExpression ;;
    p <- span (byteOffset e) ;;
    let isCall := match e with EQName _ n => isStatementCall n | _ => false end in
    nextToken ;;
    rec (FPrimaryLoop (if isCall then ECallNamed p false e [EList p params] None
                       else EAccess p e params))
  | TDot =>
    nextToken ;;
    cur <- curTok ;;
    rhs <- (if tok_eqb cur TType then
              s <- tokenString ;;
              start <- tokStart ;;
              p <- span start ;;
              nextToken ;;
              ret (EQName p s)
            else atomExpression) ;;
    p <- span (byteOffset e) ;;
    rec (FPrimaryLoop (EBin p KNamedAccess [] e rhs))
  | _ =>
    match e with
    | EBin p KNamedAccess _ _ _ => ret (convertLhsToCall e [] None p)
    | _ => ret e
    end
  end.

(** ifExpression (parser.go:882-914) *)
Definition if_body (unless : bool) : M expr :=
  start <- tokStart ;;
  nextToken ;;
  condition <- rec (FLevel LOr) ;;
  thn <- braces ;;
  cur <- curTok ;;
  els <- (match cur with
          | TElse => nextToken ;; braces
          | TElsif => if unless then issue PARSE_ELSIF_IN_UNLESS else rec (FIf false)
          | _ => ts <- tokStart ;; ret (ENop (mkpos ts 0))
          end) ;;
  p <- span start ;;
  ret (EIf p unless condition thn els).

(** caseExpression, caseOptions, caseOption (parser.go:942-973) *)
Definition caseOption : M expr :=
  start <- tokStart ;;
  values <- expressions TColon PExpression ;;
  nextToken ;;
  b <- braces ;;
  p <- span start ;;
  ret (ECaseOption p values b).
Definition caseOptions_body (acc : list expr) : M (list expr) :=
  o <- caseOption ;;
  cur <- curTok ;;
  if tok_eqb cur TRc then ret (acc ++ [o]) else rec (FCaseOptions (acc ++ [o])).
Definition caseExpression : M expr :=
  start <- tokStart ;;
  nextToken ;;
  test <- expression ;;
  assertToken TLc ;;
  nextToken ;;
  os <- rec (FCaseOptions []) ;;
  p <- span start ;;
  nextToken ;;
  ret (ECase p test os).

(** resourceShape (parser.go:1037-1051) *)
Inductive shape : Set := ShResource (name : str) | ShDefaults | ShOverride | ShError.
Definition resourceShape (e : expr) : M shape :=
  match e with
  | EQName _ n => ret (ShResource n)
  | EQRef _ _ => ret ShDefaults
  | EAccess _ (EQRef q _) keys =>
    text <- ask c_text ;;
    s <- of_sum (node_text text q) ;;
    ret (if str_eqb s (lit "Resource") && (zlen keys =? 1) then ShDefaults else ShOverride)
  | EAccess _ _ _ => ret ShOverride
  | _ => ret ShError
  end.

(** resourceExpression (parser.go:975-1035) *)
Definition resourceExpr_body (start : Z) (first : expr) (form : rform) : M expr :=
  bodiesStart <- getPos ;;
  nextToken ;;
  titleStart <- getPos ;;
  cur <- curTok ;;
  firstTitle <- (if negb (tok_eqb cur TMultiply) then t <- expression ;; ret (Some t) else ret None) ;;
  cur <- curTok ;;
  let close e := assertToken TRc ;; nextToken ;; ret e in
  let backtrack := setPos bodiesStart ;; nextToken in
  if negb (tok_eqb cur TColon) then
    setPos titleStart ;;
    sh <- resourceShape first ;;
    match sh with
    | ShResource name =>
      if isStatementCall name then
        backtrack ;;
        es <- expressions TRc PKeyedEntry ;;
        hp <- span bodiesStart ;;
        p <- span start ;;
        nextToken ;;
        ret (ECallNamed p true first [EHash hp es] None)
      else
        setPos start ;;
        issue2 PARSE_RESOURCE_WITHOUT_TITLE [("name"%string, name)]
    | ShDefaults =>
      backtrack ;;
      ops <- attributeOperations ;;
      p <- span start ;;
      close (EResDefaults p form first ops)
    | ShOverride =>
      backtrack ;;
      ops <- attributeOperations ;;
      p <- span start ;;
      close (EResOverride p form first ops)
    | ShError => setPos (byteOffset first) ;; issue PARSE_INVALID_RESOURCE
    end
  else
    bodies <- rec (FBodies firstTitle []) ;;
    p <- span start ;;
    close (EResource p form first bodies).

(** resourceBodies, resourceBody (parser.go:1053-1076) *)
Definition resourceBody (title : option expr) : M expr :=
  match title with
  | None => throw (GoPanic GoNilDeref)
  | Some title =>
    cur <- curTok ;;
    if negb (tok_eqb cur TColon) then setPos (byteOffset title) ;; issue PARSE_EXPECTED_TITLE
    else
      nextToken ;;
      ops <- attributeOperations ;;
      p <- span (byteOffset title) ;;
      ret (EResBody p title ops)
  end.
Definition bodies_body (title : option expr) (acc : list expr) : M (list expr) :=
  cur <- curTok ;;
  if tok_eqb cur TRc then ret acc
  else
    b <- resourceBody title ;;
    cur <- curTok ;;
    if negb (tok_eqb cur TSemicolon) then ret (acc ++ [b])
    else
      nextToken ;;
      cur <- curTok ;;
      title' <- (if negb (tok_eqb cur TRc) then t <- expression ;; ret (Some t) else ret title) ;;
      rec (FBodies title' (acc ++ [b])).

(** attributeOperations, attributeOperation, attributeName
    (parser.go:1078-1121) *)
Definition attributeOperation : M expr :=
  start <- tokStart ;;
  cur <- curTok ;;
  if tok_eqb cur TMultiply then
    nextToken ;;
    assertToken TFarrow ;;
    nextToken ;;
    e <- expression ;;
    p <- span start ;;
    ret (EAttrsOp p e)
  else
    name <- identifier ;;
    match name with
    | None => issue PARSE_EXPECTED_ATTRIBUTE_NAME
    | Some name =>
      cur <- curTok ;;
      match cur with
      | TFarrow | TParrow =>
        op <- tokenString ;;
        nextToken ;;
        e <- expression ;;
        p <- span start ;;
        ret (EAttrOp p op name e)
      | _ => issue PARSE_INVALID_ATTRIBUTE
      end
    end.
Definition attrOps_body (acc : list expr) : M (list expr) :=
  cur <- curTok ;;
  match cur with
  | TSemicolon | TRc => ret acc
  | _ =>
    op <- attributeOperation ;;
    cur <- curTok ;;
    if negb (tok_eqb cur TComma) then ret (acc ++ [op])
    else nextToken ;; rec (FAttrOps (acc ++ [op]))
  end.

(** typeAliasOrDefinition (parser.go:1197-1258) *)
Definition alias_body : M expr :=                       (* parser.go:1213-1236 *)
  nextToken ;;
  bodyStart <- tokStart ;;
  body <- expression ;;
  let object args := 
    p <- span bodyStart ;;
    ret (EAccess p (EQRef (mkpos bodyStart 0) (lit "Object")) args) in
  match body with
  | EQRef q n =>
    cur <- curTok ;;
    if tok_eqb cur TLc then
      h <- expression ;;
      match h with
      | EHash _ entries =>
        if str_eqb n (lit "Object") || str_eqb n (lit "TypeSet") then
          p <- span bodyStart ;; ret (EAccess p body [h])
        else
          p <- span bodyStart ;;
          object [EHash p (EKeyed q (EString q (lit "parent")) body :: entries)]
      | _ => throw (GoPanic GoTypeAssert)
      end
    else ret body
  | EList _ [x] => object [x]
  | EHash _ _ => object [body]
  | _ => ret body
  end.
Definition typeAliasOrDefinition : M expr :=
  start <- tokStart ;;
  typeExpr <- rec FParameterType ;;
  cur <- curTok ;;
  match typeExpr with
  | EQRef _ name =>
    let definition parent :=                            (* parser.go:1249-1253 *)
      nextToken ;;
      b <- parse TRc false ;;
      nextToken ;;
      p <- span start ;;
      addDefinition (ETypeDef p name parent b) in
    match cur with
    | TAssign =>
      body <- alias_body ;;
      p <- span start ;;
      addDefinition (ETypeAlias p name body)
    | TInherits =>
      nextToken ;;
      parent <- typeName ;;
      match parent with
      | Some (EQRef _ pn) => assertToken TLc ;; definition pn
      | Some _ => throw (GoPanic GoTypeAssert)
      | None => issue PARSE_INHERITS_MUST_BE_TYPE_NAME
      end
    | TLc => definition []
    | _ => unexpectedToken
    end
  | EAccess _ _ _ =>
    if tok_eqb cur TAssign then
      nextToken ;;
      m <- expression ;;
      p <- span start ;;
      addDefinition (ETypeMapping p typeExpr m)
    else issue PARSE_EXPECTED_TYPE_NAME_AFTER_TYPE
  | _ => issue PARSE_EXPECTED_TYPE_NAME_AFTER_TYPE
  end.

(** the optional parameter list of definitions (parser.go:1608-1614 and
    alike) *)
Definition optParameterList : M (list expr) :=
  cur <- curTok ;;
  match cur with
  | TLp | TWslp => ps <- parameterList ;; nextToken ;; ret ps
  | _ => ret []
  end.

(** functionDefinition, planDefinition (parser.go:1593-1668) *)
Definition definitionName (code : icode) : M str :=
  cur <- curTok ;;
  match cur with
  | TIdentifier | TTypeName => tokenString
  | _ => toTokenStart ;; issue code
  end.
Definition functionDefinition : M expr :=
  start <- tokStart ;;
  nextToken ;;
  name <- definitionName PARSE_EXPECTED_NAME_AFTER_FUNCTION ;;
  nextToken ;;
  ps <- optParameterList ;;
  rt <- optReturnType ;;
  b <- braces ;;
  p <- span start ;;
  addDefinition (EFunc p false name ps b rt).
Definition planDefinition : M expr :=
  start <- tokStart ;;
  nextToken ;;
  name <- definitionName PARSE_EXPECTED_NAME_AFTER_PLAN ;;
  nextToken ;;
  pushName name ;;
  ps <- optParameterList ;;
  rt <- optReturnType ;;
  b <- braces ;;
  popName ;;
  p <- span start ;;
  addDefinition (EFunc p true name ps b rt).

(** nodeDefinition, hostnames, hostname, dottedName (parser.go:1670-1745) *)
Definition dotted_body (start : Z) (names : list str) : M expr :=
  cur <- curTok ;;
  v <- ask c_val ;;
  s <- (match cur with
        | TIdentifier | TTypeName => tokenString
        | TInteger => match v with VInt z => ret (format_int z) | _ => throw (GoPanic GoTypeAssert) end
        | TFloat => match v with VFloat f => ret (format_float_g f) | _ => throw (GoPanic GoTypeAssert) end
        | _ => issue PARSE_EXPECTED_NAME_OR_NUMBER_AFTER_DOT
        end) ;;
  nextToken ;;
  cur <- curTok ;;
  if negb (tok_eqb cur TDot) then
    p <- span start ;; ret (EString p (join (lit ".") (names ++ [s])))
  else nextToken ;; rec (FDotted start (names ++ [s])).
Definition value_expr : M expr :=        (* ctx.tokenValue.(Expression) *)
  v <- ask c_val ;; match v with VExpr e => ret e | _ => throw (GoPanic GoTypeAssert) end.
Definition hostname : M expr :=
  start <- tokStart ;;
  cur <- curTok ;;
  match cur with
  | TIdentifier | TTypeName | TInteger | TFloat => rec (FDotted start [])
  | TRegexp => s <- tokenString ;; p <- span start ;; nextToken ;; ret (ERegexp p s)
  | TString => s <- tokenString ;; p <- span start ;; nextToken ;; ret (EString p s)
  | TDefault => p <- span start ;; nextToken ;; ret (EDefault p)
  | TConcatenatedString | THeredoc => e <- value_expr ;; nextToken ;; ret e
  | _ => issue PARSE_EXPECTED_HOSTNAME
  end.
Definition hostnames_body (acc : list expr) : M (list expr) :=
  h <- hostname ;;
  cur <- curTok ;;
  if negb (tok_eqb cur TComma) then ret (acc ++ [h])
  else
    nextToken ;;
    cur <- curTok ;;
    match cur with
    | TInherits | TLc => ret (acc ++ [h])
    | _ => rec (FHostnames (acc ++ [h]))
    end.
Definition nodeDefinition : M expr :=
  start <- tokStart ;;
  nextToken ;;
  hs <- rec (FHostnames []) ;;
  cur <- curTok ;;
  parent <- (if tok_eqb cur TInherits then nextToken ;; h <- hostname ;; ret (Some h) else ret None) ;;
  b <- braces ;;
  p <- span start ;;
  addDefinition (ENode p parent hs b).

(** classExpression (parser.go:1871-1904) *)
Definition classExpression (start : Z) : M expr :=
  cn <- className ;;
  let name := trim_prefix (lit "::") cn in
  pushName name ;;
  ps <- optParameterList ;;
  cur <- curTok ;;
  parent <- (if tok_eqb cur TInherits then
               nextToken ;;
               cur <- curTok ;;
               if tok_eqb cur TDefault then nextToken ;; ret (tokenMap TDefault)
               else className
             else ret []) ;;
  b <- braces ;;
  popName ;;
  qn <- qualifiedName name ;;
  p <- span start ;;
  addDefinition (EDef p (DClass parent) qn ps b).

(** siteDefinition, resourceDefinition (parser.go:1958-1993) *)
Definition siteDefinition : M expr :=
  start <- tokStart ;;
  nextToken ;;
  b <- braces ;;
  p <- span start ;;
  addDefinition (ESite p b).
Definition resourceDefinition (k : dkind) : M expr :=
  start <- tokStart ;;
  nextToken ;;
  name <- className ;;
  ps <- optParameterList ;;
  b <- braces ;;
  p <- span start ;;
  addDefinition (EDef p k name ps b).

(** ** Workflow steps (parser.go:1281-1525) *)
(** stepStyle, stepName, stepExpression, activities
    (parser.go:1281-1297, 1405-1422) *)
Definition stepStyle : M style :=
  cur <- curTok ;;
  if tok_eqb cur TIdentifier then
    s <- tokenString ;;
    match workflowStyle s with
    | Some st => nextToken ;; ret st
    | None => issue PARSE_EXPECTED_STEP_STYLE
    end
  else issue PARSE_EXPECTED_STEP_STYLE.
Definition stepName (st : style) : M str :=
  i <- identifier ;;
  match i with
  | Some n => ret n
  | None => issue2 PARSE_EXPECTED_STEP_NAME [("step"%string, lit (style_str st))]
  end.
Definition stepExpression : M expr :=
  start <- getPos ;;
  cur <- curTok ;;
  if tok_eqb cur TFunction then functionDefinition
  else
    st <- stepStyle ;;
    name <- stepName st ;;
    rec (FStepDecl start st name false).
Definition activities_body (acc : list expr) : M (list expr) :=
  cur <- curTok ;;
  if tok_eqb cur TRc then nextToken ;; ret acc
  else e <- stepExpression ;; rec (FActivities (acc ++ [e])).

(** the iterator of a step (parser.go:1439-1479): the property it adds *)
Definition iterator (iterName : str) : M expr :=
  iterFunc <- tokenString ;;
  let nl := zlen iterFunc in
  fs <- tokStart ;;
  ps <- getPos ;;
  nextToken ;;
  iterParams <- parameterList ;;
  nextToken ;;
  vs <- getPos ;;
  let pl := ps - vs in
  iterVars <- lambdaParameterList ;;
  nextToken ;;
  e <- getPos ;;
  let vl := e - vs in
  let fl := e - fs in
  let entry s l k v := EKeyed (mkpos s l) (EQName (mkpos s 0) (lit k)) v in
  ret (entry fs fl "iteration"%string
         (EHash (mkpos fs fl)
            [entry fs nl "name"%string (EQName (mkpos fs nl) iterName);
             entry fs nl "function"%string (EQName (mkpos fs nl) iterFunc);
             entry ps pl "params"%string (EList (mkpos ps pl) iterParams);
             entry vs vl "vars"%string (EList (mkpos vs vl) iterVars)])).

(** stepDeclaration (parser.go:1424-1525) *)
Definition stepDecl_body (start : Z) (st : style) (name : str) (atTop : bool) : M expr :=
  (match st with SWorkflow => pushName name | _ => ret tt end) ;;
  hstart <- tokStart ;;
  assertToken TLc ;;
  nextToken ;;
  props <- expressions TRc PStepProperty ;;
  hEnd <- getPos ;;
  nextToken ;;
  cur <- curTok ;;
  iterName <- (if tok_eqb cur TVariable then
                 n <- tokenString ;;
                 nextToken ;;
                 assertToken TAssign ;;
                 nextToken ;;
                 assertToken TIdentifier ;;
                 ret n
               else ret name) ;;
  cur <- curTok ;;
  props <- (if tok_eqb cur TIdentifier then
              s <- tokenString ;;
              if mem_str s [lit "times"; lit "range"; lit "each"] then
                it <- iterator iterName ;; ret (props ++ [it])
              else issue2 PARSE_EXPECTED_ITERATOR_STYLE [("style"%string, s)]
            else ret props) ;;
  let properties := match props with [] => None | _ => Some (EHash (mkpos hstart (hEnd - hstart)) props) end in
  cur <- curTok ;;
  block <- (match st with
            | SWorkflow =>
              b <- (if tok_eqb cur TLc then
                      hstart <- tokStart ;;
                      nextToken ;;
                      acts <- rec (FActivities []) ;;
                      p <- span hstart ;;
                      ret (match acts with [] => None | _ => Some (EBlock p acts) end)
                    else ret None) ;;
              popName ;;
              ret b
            | SResource =>
              if tok_eqb cur TLc then
                nextToken ;;
                es <- expressions TRc PStateAttribute ;;
                let entries := map convertToDeferred es in    (* stateHash, parser.go:1334-1343 *)
                p <- span start ;;
                nextToken ;;
                ret (match entries with [] => None | _ => Some (EHash p entries) end)
              else ret None
            | SAction | SStateHandler => b <- braces ;; ret (Some b)
            end) ;;
  qn <- qualifiedName name ;;
  p <- span start ;;
  let e := EStep p qn st properties block in
  if atTop then addDefinition e else ret e.

(** ** atomExpression (parser.go:748-880) *)
(** a leaf made of the current token *)
Definition leaf (start : Z) (mk : pos -> M expr) : M expr :=
  p <- span start ;; e <- mk p ;; nextToken ;; ret e.
Definition atom_body : M expr :=
  atomStart <- tokStart ;;
  cur <- curTok ;;
  v <- ask c_val ;;
  match cur with
  | TLp | TWslp =>
    nextToken ;;
    e <- relationship ;;
    p <- span atomStart ;;
    assertToken TRp ;;
    nextToken ;;
    ret (EUn p KParen e)
  | TLb | TListstart =>
    nextToken ;;
    es <- arrayExpression ;;
    p <- span atomStart ;;
    nextToken ;;
    ret (EList p es)
  | TLc =>
    nextToken ;;
    es <- expressions TRc PKeyedEntry ;;
    p <- span atomStart ;;
    nextToken ;;
    ret (EHash p es)
  | TBoolean =>
    leaf atomStart (fun p => match v with VBool b => ret (EBool p b) | _ => throw (GoPanic GoTypeAssert) end)
  | TInteger =>
    leaf atomStart (fun p => match v with
                             | VInt z => r <- ask c_radix ;; ret (EInt p r z)
                             | _ => throw (GoPanic GoTypeAssert)
                             end)
  | TFloat =>
    leaf atomStart (fun p => match v with VFloat f => ret (EFloat p f) | _ => throw (GoPanic GoTypeAssert) end)
  | TString => leaf atomStart (fun p => s <- tokenString ;; ret (EString p s))
  | TAttr | TPrivate => leaf atomStart (fun p => s <- tokenString ;; ret (EReserved p s false))
  | TDefault => leaf atomStart (fun p => ret (EDefault p))
  | THeredoc | TConcatenatedString => e <- value_expr ;; nextToken ;; ret e
  | TRegexp => leaf atomStart (fun p => s <- tokenString ;; ret (ERegexp p s))
  | TUndef => leaf atomStart (fun p => ret (EUndef p))
  | TTypeName => leaf atomStart (fun p => s <- tokenString ;; ret (EQRef p s))
  | TIdentifier => leaf atomStart (fun p => s <- tokenString ;; ret (EQName p s))
  | TVariable =>
    nextToken ;;
    p <- span atomStart ;;
    match v with
    | VStr s => ret (EUn p KVariable (EQName (mkpos (atomStart + 1) (zlen s)) s))
    | VInt z => q <- span (atomStart + 1) ;; ret (EUn p KVariable (EInt q 10 z))
    | _ => throw (GoPanic GoTypeAssert)
    end
  | TCase => caseExpression
  | TIf => rec (FIf false)
  | TUnless => rec (FIf true)
  | TClass =>
    name <- tokenString ;;
    nextToken ;;
    cur <- curTok ;;
    if tok_eqb cur TLc then p <- span atomStart ;; ret (EQName p name)
    else classExpression atomStart
  | TType =>
    name <- tokenString ;;
    nextToken ;;
    cur <- curTok ;;
    if tok_eqb cur TTypeName then typeAliasOrDefinition
    else p <- span atomStart ;; ret (EQName p name)
  | TPlan => planDefinition
  | TFunction => functionDefinition
  | TNode => nodeDefinition
  | TDefine => resourceDefinition DDefine
  | TApplication => resourceDefinition DApplication
  | TSite => siteDefinition
  | TRenderString => leaf atomStart (fun p => s <- tokenString ;; ret (ERenderString p s))
  | TRenderExpr =>
    nextToken ;;
    e <- expression ;;
    p <- span atomStart ;;
    ret (EUn p KRender e)
  | _ => toTokenStart ;; unexpectedToken
  end.

(** ** parseTopExpression (parser.go:175-243), without the recover *)
(** factory.EppExpression (factory.go:193-195); params is never nil *)
Definition eppLambda (params : list expr) (b : expr) (p : pos) : expr :=
  ELambda p params (EEpp p true b) None.
(** asEppLambda (parser.go:196-206) *)
Definition asEppLambda (e : expr) : M expr :=
  p <- span 0 ;;
  match e with
  | ELambda _ _ (EEpp _ _ _) _ => ret e
  | EBlock _ _ => ret (eppLambda [] e p)
  | _ => ret (eppLambda [] (EBlock p [e]) p)
  end.
Definition eppLoop_body (acc : list expr) : M expr :=
  cur <- curTok ;;
  if tok_eqb cur TEnd then
    ss <- transformCalls acc ;;
    p <- span 0 ;;
    asEppLambda (EBlock p ss)
  else e <- expression ;; rec (FEppLoop (acc ++ [e])).
Definition parseTop (single : bool) : M expr :=
  epp <- option_on o_epp ;;
  if epp : bool then
    consumeEPP rec ;;
    cur <- curTok ;;
    text <- (if tok_eqb cur TRenderString then s <- tokenString ;; nextToken ;; ret s else ret []) ;;
    cur <- curTok ;;
    if tok_eqb cur TEnd then
      p <- span 0 ;;
      asEppLambda (ERenderString p text)
    else if tok_eqb cur TPipe then
      match text with
      | _ :: _ => issue PARSE_ILLEGAL_EPP_PARAMETERS
      | [] =>
        params <- lambdaParameterList ;;
        nextToken ;;
        b <- parse TEnd false ;;
        p <- span 0 ;;
        asEppLambda (eppLambda params b p)
      end
    else
      ts <- tokStart ;;
      rec (FEppLoop (match text with [] => [] | _ => [ERenderString (mkpos 0 ts) text] end))
  else
    nextToken ;;
    parse TEnd single.

(** The Go function behind every tag *)
Definition body (A : Type) (f : fn A) : M A :=
  match f in fn A return M A with
  | FNextToken => nextToken_body rec
  | FDelim d ds h buf ec s segs => delim_body rec d ds h buf ec s segs
  | FApply e i fl bld c s segs => apply_body rec e i fl bld c s segs
  | FParse e s => parse_body e s
  | FStatements e acc => statements_body e acc
  | FCommas acc => commas_body acc
  | FExpressions e p acc => expressions_body e p acc
  | FRelationship => relationship_body
  | FRelLoop e => relLoop_body e
  | FAssignment => assignment_body
  | FAssignLoop e => assignLoop_body e
  | FExpression => expression_body
  | FSelectLoop e => selectLoop_body e
  | FLevel l => level_body l
  | FLevelLoop l e => levelLoop_body l e
  | FUnary => unary_body
  | FPrimary => primary_body
  | FPrimaryLoop e => primaryLoop_body e
  | FAtom => atom_body
  | FCall e => call_body e
  | FParameterType => parameterType_body
  | FIf u => if_body u
  | FCaseOptions acc => caseOptions_body acc
  | FResourceExpr s e f => resourceExpr_body s e f
  | FBodies t acc => bodies_body t acc
  | FAttrOps acc => attrOps_body acc
  | FHostnames acc => hostnames_body acc
  | FDotted s ns => dotted_body s ns
  | FActivities acc => activities_body acc
  | FStepDecl s st n t => stepDecl_body s st n t
  | FEppLoop acc => eppLoop_body acc
  end.
End Rec.

(** Tying the knot *)
Fixpoint run (n : nat) (A : Type) (f : fn A) : M A :=
  match n with
  | O => out_of_fuel
  | S n' => body (run n') f
  end.

(** ** The API *)
(** CreateParser (parser.go:138-156): the context of a new parser *)
Definition createParser (o : opts) : ctx :=
  mkctx [] o 0 0 TEnd 0 0 VNil 0 [] [].

(** What Parse does, without the conversion of panics to errors: the start
    state (parser.go:163-166) and the call *)
Definition start_ctx (source : str) (c : ctx) : ctx :=
  mkctx source (c_opts c) 0 (-1) (c_tok c) (c_bol c) (c_tsp c) (c_val c) (c_radix c) (c_names c) [].
Definition parse_run (fuel : nat) (c : ctx) (source : str) (single : bool) : res expr :=
  match parseTop (run fuel) single (start_ctx source c) with
  | Ok e c' => Ok (if single then e else EProgram (mkpos 0 (c_pos c')) e (c_defs c')) c'
  | Err e c' => Err e c'
  | Fuel => Fuel
  end.

(** NewSimpleLexer (parser.go:87-97): nextLineStart is 0, no factory *)
Definition simpleLexer (isL : Z -> bool) (source : str) : ctx :=
  mkctx source (mkopts false false false false false false isL) 0 0 TEnd 0 0 VNil 0 [] [].
