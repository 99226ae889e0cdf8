(** * SpecPnTree: what the PN of a tree says (C51)

    [read r q] is the tree the PN form [q] stands for.  It is written from the
    forms alone: each form has a name ([forms]) and says what its arguments, or
    the fields of its map, are.  [known e] is what is left of the tree [e] when
    what PN does not show is dropped: every position is 0, and

    - an [elsif] is an [else] whose block holds an [if];
    - a list of statements separated by commas is an array;
    - the index of a variable ($1) has radix 10;
    - whether a reserved word is one of the future is dropped, and so is
      whether a template has parameters;
    - a program is its body. *)
From Verif Require Import Base Float Ast Pn.

(** ** Trees without positions *)
Definition here : pos := mkpos 0 0.
Definition ored (A B : Type) (f : A -> B) (o : option A) : option B := match o with Some x => Some (f x) | None => None end.

Fixpoint known (e : expr) : expr :=
  match e with
  | EAccess _ x ks => EAccess here (known x) (map known ks)
  | EBin _ k op l r => EBin here k op (known l) (known r)
  | EUn _ KVariable (EInt _ _ v) => EUn here KVariable (EInt here 10 v)
  | EUn _ k x => EUn here k (known x)
  | EQuery _ b x => EQuery here b (known x)
  | EAttrOp _ op n v => EAttrOp here op n (known v)
  | EAttrsOp _ x => EAttrsOp here (known x)
  | EBlock _ ss => EBlock here (map known ss)
  | ECallMethod _ rv f args lam => ECallMethod here rv (known f) (map known args) (ored known lam)
  | ECallNamed _ rv f args lam => ECallNamed here rv (known f) (map known args) (ored known lam)
  | ECapMap _ kind cap c ms => ECapMap here kind cap (known c) (map known ms)
  | ECase _ t os => ECase here (known t) (map known os)
  | ECaseOption _ vs t => ECaseOption here (map known vs) (known t)
  | ECollect _ t q ops => ECollect here (known t) (known q) (map known ops)
  | EConcat _ ss => EConcat here (map known ss)
  | EEpp _ _ b => EEpp here true (known b)
  | EHeredoc _ s t => EHeredoc here s (known t)
  | EDef _ k n ps b => EDef here k n (map known ps) (known b)
  | EFunc _ pl n ps b r => EFunc here pl n (map known ps) (known b) (ored known r)
  | EIf _ u t th el =>
    EIf here u (known t) (known th)
      (match el with EIf _ _ _ _ _ => EBlock here [known el] | _ => known el end)
  | EKeyed _ k v => EKeyed here (known k) (known v)
  | ELambda _ ps b r => ELambda here (map known ps) (known b) (ored known r)
  | EBool _ b => EBool here b
  | EDefault _ => EDefault here
  | EFloat _ f => EFloat here f
  | EHash _ es => EHash here (map known es)
  | EInt _ r v => EInt here r v
  | EList _ es | ECommaList _ es => EList here (map known es)
  | EString _ s => EString here s
  | EUndef _ => EUndef here
  | ENode _ p hs b => ENode here (ored known p) (map known hs) (known b)
  | ENop _ => ENop here
  | EParam _ n v t r => EParam here n (ored known v) (ored known t) r
  | EProgram _ b _ => known b
  | EQName _ n => EQName here n
  | EQRef _ n => EQRef here n
  | ERegexp _ s => ERegexp here s
  | ERenderString _ s => ERenderString here s
  | EReserved _ w _ => EReserved here w false
  | EResBody _ t ops => EResBody here (known t) (map known ops)
  | EResDefaults _ f t ops => EResDefaults here f (known t) (map known ops)
  | EResource _ f t bs => EResource here f (known t) (map known bs)
  | EResOverride _ f r ops => EResOverride here f (known r) (map known ops)
  | ESelEntry _ m v => ESelEntry here (known m) (known v)
  | ESelector _ l ss => ESelector here (known l) (map known ss)
  | ESite _ b => ESite here (known b)
  | ETypeAlias _ n t => ETypeAlias here n (known t)
  | ETypeDef _ n p b => ETypeDef here n p (known b)
  | ETypeMapping _ t m => ETypeMapping here (known t) (known m)
  | EStep _ n s p d => EStep here n s (ored known p) (ored known d)
  end.

(** ** The forms *)
Inductive form : Set :=
| FOperator (k : bkind) (op : string)      (* a binary operator *)
| FUnary (k : ukind)
| FMinus                                   (* one argument, or two *)
| FArrow | FPlusArrow | FSplat             (* entries of hashes, selectors and resources *)
| FVar | FName | FType | FRegex | FRenderText | FWord
| FUndefault | FNothing
| FAccess | FBlock | FHash | FArray | FConcat | FTemplate | FSite
| FQuery (exported : bool)
| FMethod (rvalue : bool) | FCalling (rvalue : bool)
| FCapability (kind : string)
| FCase | FSelect | FCollect | FHeredoc
| FClass | FDefine | FApplication | FFunction (plan : bool) | FNode | FLambda | FParam
| FIfs (unless : bool)
| FNumber
| FBody | FDefaults | FResource | FOverride
| FAlias | FTypeDefinition | FMapping | FStep.

Definition forms : list (string * form) := [
  ("and", FOperator KAnd ""); ("or", FOperator KOr ""); ("in", FOperator KIn ""); (".", FOperator KNamedAccess "");
  ("+", FOperator KArithmetic "+"); ("*", FOperator KArithmetic "*"); ("/", FOperator KArithmetic "/");
  ("%", FOperator KArithmetic "%"); ("<<", FOperator KArithmetic "<<"); (">>", FOperator KArithmetic ">>");
  ("=", FOperator KAssignment "="); ("+=", FOperator KAssignment "+="); ("-=", FOperator KAssignment "-=");
  ("==", FOperator KComparison "=="); ("!=", FOperator KComparison "!=");
  ("<", FOperator KComparison "<"); ("<=", FOperator KComparison "<=");
  (">", FOperator KComparison ">"); (">=", FOperator KComparison ">=");
  ("=~", FOperator KMatch "=~"); ("!~", FOperator KMatch "!~");
  ("->", FOperator KRelationship "->"); ("~>", FOperator KRelationship "~>");
  ("<-", FOperator KRelationship "<-"); ("<~", FOperator KRelationship "<~");
  ("-", FMinus);
  ("!", FUnary KNot); ("paren", FUnary KParen); ("render", FUnary KRender); ("str", FUnary KText); ("unfold", FUnary KUnfold);
  ("=>", FArrow); ("+>", FPlusArrow); ("splat-hash", FSplat);
  ("var", FVar); ("qn", FName); ("qr", FType); ("regexp", FRegex); ("render-s", FRenderText); ("reserved", FWord);
  ("default", FUndefault); ("nop", FNothing);
  ("access", FAccess); ("block", FBlock); ("hash", FHash); ("array", FArray); ("concat", FConcat);
  ("epp", FTemplate); ("site", FSite);
  ("exported-query", FQuery true); ("virtual-query", FQuery false);
  ("call-method", FMethod true); ("invoke-method", FMethod false);
  ("call", FCalling true); ("invoke", FCalling false);
  ("consumes", FCapability "consumes"); ("produces", FCapability "produces");
  ("case", FCase); ("?", FSelect); ("collect", FCollect); ("heredoc", FHeredoc);
  ("class", FClass); ("define", FDefine); ("application", FApplication);
  ("function", FFunction false); ("plan", FFunction true); ("node", FNode); ("lambda", FLambda); ("param", FParam);
  ("if", FIfs false); ("unless", FIfs true);
  ("int", FNumber);
  ("resource-body", FBody); ("resource-defaults", FDefaults); ("resource", FResource); ("resource-override", FOverride);
  ("type-alias", FAlias); ("type-definition", FTypeDefinition); ("type-mapping", FMapping); ("step", FStep)
]%string.
Fixpoint form_of (l : list (string * form)) (n : str) : option form :=
  match l with
  | [] => None
  | (s, f) :: l' => if str_eqb n (lit s) then Some f else form_of l' n
  end.

(** ** Reading *)
Local Notation "'let?' x := a 'in' b" := (match a with Some x => b | None => None end)
  (at level 200, x pattern, a at level 100, b at level 200).
Fixpoint every (A : Type) (l : list (option A)) : option (list A) :=
  match l with
  | [] => Some []
  | x :: l' => let? y := x in let? r := every l' in Some (y :: r)
  end.
(** the value of a field of a map, read by [f] *)
Definition field (A : Type) (k : string) (f : pn -> option A) : list (str * pn) -> option A :=
  fix find es := match es with
  | [] => None
  | (k', v) :: es' => if str_eqb k' (lit k) then f v else find es'
  end.
(** a field that may be missing: [d] when it is *)
Definition field_or (A : Type) (d : A) (k : string) (f : pn -> option A) : list (str * pn) -> option A :=
  fix find es := match es with
  | [] => Some d
  | (k', v) :: es' => if str_eqb k' (lit k) then f v else find es'
  end.
Definition some (A : Type) (f : pn -> option A) (q : pn) : option (option A) := let? x := f q in Some (Some x).
Definition string_of (q : pn) : option str := match q with PLit (LStr s) => Some s | _ => None end.
Definition int_of (q : pn) : option Z := match q with PLit (LInt z) => Some z | _ => None end.
Definition bool_of (q : pn) : option bool := match q with PLit (LBool b) => Some b | _ => None end.
Definition resource_form (q : pn) : option rform :=
  let? s := string_of q in
  if str_eqb s (lit "virtual") then Some Virtual else if str_eqb s (lit "exported") then Some Exported else None.
Definition step_style (q : pn) : option style :=
  let? s := string_of q in
  if str_eqb s (lit "action") then Some SAction
  else if str_eqb s (lit "resource") then Some SResource
  else if str_eqb s (lit "stateHandler") then Some SStateHandler
  else if str_eqb s (lit "workflow") then Some SWorkflow else None.
Definition value_of (v : lval) : expr :=
  match v with
  | LNil => EUndef here | LStr s => EString here s | LInt z => EInt here 10 z
  | LFloat f => EFloat here f | LBool b => EBool here b
  end.
(** the block that is the body of something; the body of a lambda that is a
    template is the template *)
Definition body_of (ss : list expr) : expr :=
  match ss with [EEpp p b x] => EEpp p b x | _ => EBlock here ss end.

(** Where a form stands: the entries of a hash, of a selector and of a resource
    look alike, and so do a map that is a case option and one that is a
    resource body. *)
Inductive place : Set := Plain | InHash | InSelector | InAttributes | InCase | InResource.

(** What the arguments of a form are, when [read] reads the forms in them. *)
Section Reading.
Variable read : place -> pn -> option expr.
Definition many (r : place) (q : pn) : option (list expr) :=
  match q with PList l => every (map (read r) l) | _ => None end.
Definition block (q : pn) : option expr :=
  match q with PList l => let? ss := every (map (read Plain) l) in Some (body_of ss) | _ => None end.
Definition parameter (n : str) (q : pn) : option expr :=
  match q with
  | PMap es =>
    let? t := field_or None "type" (some (read Plain)) es in
    let? s := field_or false "splat" bool_of es in
    let? v := field_or None "value" (some (read Plain)) es in
    Some (EParam here n v t s)
  | _ => None
  end.
Definition parameters (q : pn) : option (list expr) :=
  match q with PMap es => every (map (fun e => match e with (n, v) => parameter n v end) es) | _ => None end.
Definition resource_body (es : list (str * pn)) : option expr :=
  let? t := field "title" (read Plain) es in let? ops := field "ops" (many InAttributes) es in Some (EResBody here t ops).
Definition case_option (es : list (str * pn)) : option expr :=
  let? vs := field "when" (many Plain) es in let? b := field "then" block es in Some (ECaseOption here vs b).

Definition read_form (r : place) (f : form) (args : list pn) : option expr :=
  match f with
  | FAccess => match args with x :: ks => let? a := read Plain x in let? l := every (map (read Plain) ks) in Some (EAccess here a l) | [] => None end
  | FBlock => let? l := every (map (read Plain) args) in Some (EBlock here l)
  | FHash => let? l := every (map (read InHash) args) in Some (EHash here l)
  | FArray => let? l := every (map (read Plain) args) in Some (EList here l)
  | FConcat => let? l := every (map (read Plain) args) in Some (EConcat here l)
  | FTemplate => let? l := every (map (read Plain) args) in Some (EEpp here true (EBlock here l))
  | FSite => let? l := every (map (read Plain) args) in Some (ESite here (EBlock here l))
  | FUndefault => match args with [] => Some (EDefault here) | _ => None end
  | FNothing => match args with [] => Some (ENop here) | _ => None end
  | FQuery b =>
    match args with
    | [] => Some (EQuery here b (ENop here))
    | [x] => let? a := read Plain x in Some (EQuery here b a)
    | _ => None
    end
  | FUnary k => match args with [x] => let? a := read Plain x in Some (EUn here k a) | _ => None end
  | FMinus =>
    match args with
    | [x] => let? a := read Plain x in Some (EUn here KUnaryMinus a)
    | [x; y] => let? a := read Plain x in let? b := read Plain y in Some (EBin here KArithmetic (lit "-") a b)
    | _ => None
    end
  | FSplat => match args with [x] => let? a := read Plain x in Some (EAttrsOp here a) | _ => None end
  | FVar =>
    match args with
    | [PLit (LStr n)] => Some (EUn here KVariable (EQName here n))
    | [PLit (LInt v)] => Some (EUn here KVariable (EInt here 10 v))
    | _ => None
    end
  | FName => match args with [x] => let? n := string_of x in Some (EQName here n) | _ => None end
  | FType => match args with [x] => let? n := string_of x in Some (EQRef here n) | _ => None end
  | FRegex => match args with [x] => let? n := string_of x in Some (ERegexp here n) | _ => None end
  | FRenderText => match args with [x] => let? n := string_of x in Some (ERenderString here n) | _ => None end
  | FWord => match args with [x] => let? n := string_of x in Some (EReserved here n false) | _ => None end
  | FOperator k op => match args with [x; y] => let? a := read Plain x in let? b := read Plain y in Some (EBin here k (lit op) a b) | _ => None end
  | FArrow =>
    match args with
    | [x; y] =>
      match r with
      | InHash => let? a := read Plain x in let? b := read Plain y in Some (EKeyed here a b)
      | InSelector => let? a := read Plain x in let? b := read Plain y in Some (ESelEntry here a b)
      | InAttributes => let? n := string_of x in let? b := read Plain y in Some (EAttrOp here (lit "=>") n b)
      | _ => None
      end
    | _ => None
    end
  | FPlusArrow => match args with [x; y] => let? n := string_of x in let? b := read Plain y in Some (EAttrOp here (lit "+>") n b) | _ => None end
  | FCapability kind =>
    match args with
    | [x; PList (c :: ms)] =>
      let? a := read Plain x in let? n := string_of c in let? l := every (map (read InAttributes) ms) in
      Some (ECapMap here (lit kind) n a l)
    | _ => None
    end
  | FCase => match args with [x; y] => let? a := read Plain x in let? l := many InCase y in Some (ECase here a l) | _ => None end
  | FSelect => match args with [x; y] => let? a := read Plain x in let? l := many InSelector y in Some (ESelector here a l) | _ => None end
  | FAlias => match args with [x; y] => let? n := string_of x in let? a := read Plain y in Some (ETypeAlias here n a) | _ => None end
  | FMapping => match args with [x; y] => let? a := read Plain x in let? b := read Plain y in Some (ETypeMapping here a b) | _ => None end
  | FTypeDefinition =>
    match args with
    | [x; y; z] => let? n := string_of x in let? p := string_of y in let? b := read Plain z in Some (ETypeDef here n p b)
    | _ => None
    end
  | FMethod rv => match args with [PMap es] =>
      let? g := field "functor" (read Plain) es in let? l := field "args" (many Plain) es in
      let? b := field_or None "block" (some (read Plain)) es in Some (ECallMethod here rv g l b)
    | _ => None end
  | FCalling rv => match args with [PMap es] =>
      let? g := field "functor" (read Plain) es in let? l := field "args" (many Plain) es in
      let? b := field_or None "block" (some (read Plain)) es in Some (ECallNamed here rv g l b)
    | _ => None end
  | FCollect => match args with [PMap es] =>
      let? t := field "type" (read Plain) es in let? q := field "query" (read Plain) es in
      let? ops := field_or [] "ops" (many InAttributes) es in Some (ECollect here t q ops)
    | _ => None end
  | FHeredoc => match args with [PMap es] =>
      let? s := field_or [] "syntax" string_of es in let? t := field "text" (read Plain) es in Some (EHeredoc here s t)
    | _ => None end
  | FClass => match args with [PMap es] =>
      let? n := field "name" string_of es in let? p := field_or [] "parent" string_of es in
      let? ps := field_or [] "params" parameters es in let? b := field "body" block es in
      Some (EDef here (DClass p) n ps b)
    | _ => None end
  | FDefine => match args with [PMap es] =>
      let? n := field "name" string_of es in let? ps := field_or [] "params" parameters es in
      let? b := field "body" block es in Some (EDef here DDefine n ps b)
    | _ => None end
  | FApplication => match args with [PMap es] =>
      let? n := field "name" string_of es in let? ps := field_or [] "params" parameters es in
      let? b := field "body" block es in Some (EDef here DApplication n ps b)
    | _ => None end
  | FFunction plan => match args with [PMap es] =>
      let? n := field "name" string_of es in let? ps := field_or [] "params" parameters es in
      let? b := field "body" block es in let? t := field_or None "returns" (some (read Plain)) es in
      Some (EFunc here plan n ps b t)
    | _ => None end
  | FNode => match args with [PMap es] =>
      let? hs := field "matches" (many Plain) es in let? p := field_or None "parent" (some (read Plain)) es in
      let? b := field "body" block es in Some (ENode here p hs b)
    | _ => None end
  | FLambda => match args with [PMap es] =>
      let? ps := field_or [] "params" parameters es in let? b := field "body" block es in
      let? t := field_or None "returns" (some (read Plain)) es in Some (ELambda here ps b t)
    | _ => None end
  | FParam => match args with [PMap es] =>
      let? n := field "name" string_of es in parameter n (PMap es)
    | _ => None end
  | FIfs u => match args with [PMap es] =>
      let? t := field "test" (read Plain) es in let? a := field "then" block es in
      let? b := field_or (ENop here) "else" block es in Some (EIf here u t a b)
    | _ => None end
  | FNumber => match args with [PMap es] =>
      let? r := field "radix" int_of es in let? v := field "value" int_of es in Some (EInt here r v)
    | _ => None end
  | FBody => match args with [PMap es] =>
      resource_body es
    | _ => None end
  | FDefaults => match args with [PMap es] =>
      let? t := field "type" (read Plain) es in let? l := field "ops" (many InAttributes) es in
      let? g := field_or Regular "form" resource_form es in Some (EResDefaults here g t l)
    | _ => None end
  | FResource => match args with [PMap es] =>
      let? t := field "type" (read Plain) es in let? l := field "bodies" (many InResource) es in
      let? g := field_or Regular "form" resource_form es in Some (EResource here g t l)
    | _ => None end
  | FOverride => match args with [PMap es] =>
      let? t := field "resources" (read Plain) es in let? l := field "ops" (many InAttributes) es in
      let? g := field_or Regular "form" resource_form es in Some (EResOverride here g t l)
    | _ => None end
  | FStep => match args with [PMap es] =>
      let? n := field "name" string_of es in let? s := field "style" step_style es in
      let? p := field_or None "properties" (some (read Plain)) es in let? d := field_or None "definition" (some (read Plain)) es in
      Some (EStep here n s p d)
    | _ => None end
  end.
End Reading.

Fixpoint read (r : place) (q : pn) {struct q} : option expr :=
  match q with
  | PLit v => Some (value_of v)
  | PList _ => None
  | PMap es =>
    match r with
    | InCase => case_option read es
    | InResource => resource_body read es
    | _ => None
    end
  | PCall name args =>
    match form_of forms name with
    | Some f => read_form read r f args
    | None => None
    end
  end.

(** Where a node of a tree stands. *)
Definition place_of (e : expr) : place :=
  match e with
  | EKeyed _ _ _ => InHash
  | ESelEntry _ _ _ => InSelector
  | EAttrOp _ _ _ _ | EAttrsOp _ _ => InAttributes
  | ECaseOption _ _ _ => InCase
  | _ => Plain
  end.
