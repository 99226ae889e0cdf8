(** * Ast: the syntax tree (parser/expression.go:24-557, parser/workflow.go,
      parser/factory.go)

    One constructor per concrete Go struct, except that structs with the same
    fields are grouped under a kind.  The factory functions of
    parser/factory.go:78-353 are these constructors.  [CallFunctionExpression]
    is left out: nothing in the code base creates one.  The locator pointer of
    [Positioned] is left out (every node of a tree points at the one locator of
    the parse).  An interface-typed field that may be nil is an [option]. *)
From Verif Require Import Base Float.

(** Positioned (expression.go:530-534): byte offset and byte length *)
Record pos := mkpos { p_off : Z; p_len : Z }.

(** Structs that embed binaryExpression (expression.go:510-514) *)
Inductive bkind : Set :=
| KAnd            (* AndExpression *)
| KOr             (* OrExpression *)
| KIn             (* InExpression *)
| KNamedAccess    (* NamedAccessExpression *)
| KArithmetic     (* ArithmeticExpression *)
| KAssignment     (* AssignmentExpression *)
| KComparison     (* ComparisonExpression *)
| KMatch          (* MatchExpression *)
| KRelationship.  (* RelationshipExpression *)

(** Structs that embed unaryExpression (expression.go:541-544) *)
Inductive ukind : Set :=
| KNot | KParen | KRender | KText | KUnaryMinus | KUnfold | KVariable.

(** ResourceForm (expression.go:71, 553-557) *)
Inductive rform : Set := Virtual | Exported | Regular.

(** StepStyle (workflow.go:5-10) *)
Inductive style : Set := SAction | SResource | SStateHandler | SWorkflow.

(** namedDefinition structs without a return type *)
Inductive dkind : Set :=
| DApplication              (* Application *)
| DDefine                   (* ResourceTypeDefinition *)
| DClass (parent : str).    (* HostClassDefinition *)

Inductive expr : Set :=
| EAccess (p : pos) (operand : expr) (keys : list expr)
| EBin (p : pos) (k : bkind) (op : str) (lhs rhs : expr)   (* op is "" for and, or, in, '.' *)
| EUn (p : pos) (k : ukind) (e : expr)
| EQuery (p : pos) (exported : bool) (e : expr)            (* ExportedQuery / VirtualQuery *)
| EAttrOp (p : pos) (op name : str) (value : expr)         (* AttributeOperation *)
| EAttrsOp (p : pos) (e : expr)                            (* AttributesOperation *)
| EBlock (p : pos) (statements : list expr)
| ECallMethod (p : pos) (rval : bool) (functor : expr) (args : list expr) (lambda : option expr)
| ECallNamed (p : pos) (rval : bool) (functor : expr) (args : list expr) (lambda : option expr)
| ECapMap (p : pos) (kind capability : str) (component : expr) (mappings : list expr)
| ECase (p : pos) (test : expr) (options : list expr)
| ECaseOption (p : pos) (values : list expr) (thn : expr)
| ECollect (p : pos) (rtype query : expr) (ops : list expr)
| EConcat (p : pos) (segments : list expr)
| EEpp (p : pos) (paramsSpecified : bool) (body : expr)
| EHeredoc (p : pos) (syntax : str) (text : expr)
| EDef (p : pos) (k : dkind) (name : str) (params : list expr) (body : expr)
| EFunc (p : pos) (plan : bool) (name : str) (params : list expr) (body : expr) (ret : option expr)
                                                           (* FunctionDefinition / PlanDefinition *)
| EIf (p : pos) (unless : bool) (test thn els : expr)      (* IfExpression / UnlessExpression *)
| EKeyed (p : pos) (key value : expr)                      (* KeyedEntry *)
| ELambda (p : pos) (params : list expr) (body : expr) (ret : option expr)
| EBool (p : pos) (b : bool)
| EDefault (p : pos)
| EFloat (p : pos) (f : f64)
| EHash (p : pos) (entries : list expr)
| EInt (p : pos) (radix value : Z)
| EList (p : pos) (elements : list expr)
| ECommaList (p : pos) (elements : list expr)              (* commaSeparatedList, parser.go:22-25 *)
| EString (p : pos) (s : str)
| EUndef (p : pos)
| ENode (p : pos) (parent : option expr) (hosts : list expr) (body : expr)
| ENop (p : pos)
| EParam (p : pos) (name : str) (value typ : option expr) (rest : bool)
| EProgram (p : pos) (body : expr) (defs : list expr)
| EQName (p : pos) (name : str)
| EQRef (p : pos) (name : str)                             (* downcasedName is ToLower(name) *)
| ERegexp (p : pos) (s : str)
| ERenderString (p : pos) (s : str)
| EReserved (p : pos) (word : str) (future : bool)
| EResBody (p : pos) (title : expr) (ops : list expr)
| EResDefaults (p : pos) (form : rform) (typeRef : expr) (ops : list expr)
| EResource (p : pos) (form : rform) (typeName : expr) (bodies : list expr)
| EResOverride (p : pos) (form : rform) (resources : expr) (ops : list expr)
| ESelEntry (p : pos) (matching value : expr)
| ESelector (p : pos) (lhs : expr) (selectors : list expr)
| ESite (p : pos) (body : expr)
| ETypeAlias (p : pos) (name : str) (typ : expr)
| ETypeDef (p : pos) (name parent : str) (body : expr)
| ETypeMapping (p : pos) (typ mapping : expr)
| EStep (p : pos) (name : str) (st : style) (props def : option expr).

(** The embedded Positioned *)
Definition epos (e : expr) : pos :=
  match e with
  | EAccess p _ _ | EBin p _ _ _ _ | EUn p _ _ | EQuery p _ _ | EAttrOp p _ _ _
  | EAttrsOp p _ | EBlock p _ | ECallMethod p _ _ _ _ | ECallNamed p _ _ _ _
  | ECapMap p _ _ _ _ | ECase p _ _ | ECaseOption p _ _ | ECollect p _ _ _
  | EConcat p _ | EEpp p _ _ | EHeredoc p _ _ | EDef p _ _ _ _ | EFunc p _ _ _ _ _
  | EIf p _ _ _ _ | EKeyed p _ _ | ELambda p _ _ _ | EBool p _ | EDefault p
  | EFloat p _ | EHash p _ | EInt p _ _ | EList p _ | ECommaList p _ | EString p _
  | EUndef p | ENode p _ _ _ | ENop p | EParam p _ _ _ _ | EProgram p _ _
  | EQName p _ | EQRef p _ | ERegexp p _ | ERenderString p _ | EReserved p _ _
  | EResBody p _ _ | EResDefaults p _ _ _ | EResource p _ _ _ | EResOverride p _ _ _
  | ESelEntry p _ _ | ESelector p _ _ | ESite p _ | ETypeAlias p _ _
  | ETypeDef p _ _ _ | ETypeMapping p _ _ | EStep p _ _ _ _ => p
  end.

(** expression.go:633-640 ByteLength, ByteOffset *)
Definition byteOffset (e : expr) : Z := p_off (epos e).
Definition byteLength (e : expr) : Z := p_len (epos e).

(** expression.go:650-653 updateOffsetAndLength *)
Definition set_pos (q : pos) (e : expr) : expr :=
  match e with
  | EAccess _ a b => EAccess q a b
  | EBin _ a b c d => EBin q a b c d
  | EUn _ a b => EUn q a b
  | EQuery _ a b => EQuery q a b
  | EAttrOp _ a b c => EAttrOp q a b c
  | EAttrsOp _ a => EAttrsOp q a
  | EBlock _ a => EBlock q a
  | ECallMethod _ a b c d => ECallMethod q a b c d
  | ECallNamed _ a b c d => ECallNamed q a b c d
  | ECapMap _ a b c d => ECapMap q a b c d
  | ECase _ a b => ECase q a b
  | ECaseOption _ a b => ECaseOption q a b
  | ECollect _ a b c => ECollect q a b c
  | EConcat _ a => EConcat q a
  | EEpp _ a b => EEpp q a b
  | EHeredoc _ a b => EHeredoc q a b
  | EDef _ a b c d => EDef q a b c d
  | EFunc _ a b c d f => EFunc q a b c d f
  | EIf _ a b c d => EIf q a b c d
  | EKeyed _ a b => EKeyed q a b
  | ELambda _ a b c => ELambda q a b c
  | EBool _ a => EBool q a
  | EDefault _ => EDefault q
  | EFloat _ a => EFloat q a
  | EHash _ a => EHash q a
  | EInt _ a b => EInt q a b
  | EList _ a => EList q a
  | ECommaList _ a => ECommaList q a
  | EString _ a => EString q a
  | EUndef _ => EUndef q
  | ENode _ a b c => ENode q a b c
  | ENop _ => ENop q
  | EParam _ a b c d => EParam q a b c d
  | EProgram _ a b => EProgram q a b
  | EQName _ a => EQName q a
  | EQRef _ a => EQRef q a
  | ERegexp _ a => ERegexp q a
  | ERenderString _ a => ERenderString q a
  | EReserved _ a b => EReserved q a b
  | EResBody _ a b => EResBody q a b
  | EResDefaults _ a b c => EResDefaults q a b c
  | EResource _ a b c => EResource q a b c
  | EResOverride _ a b c => EResOverride q a b c
  | ESelEntry _ a b => ESelEntry q a b
  | ESelector _ a b => ESelector q a b
  | ESite _ a => ESite q a
  | ETypeAlias _ a b => ETypeAlias q a b
  | ETypeDef _ a b c => ETypeDef q a b c
  | ETypeMapping _ a b => ETypeMapping q a b
  | EStep _ a b c d => EStep q a b c d
  end.

Definition opt_list (A : Type) (o : option A) : list A :=
  match o with Some x => [x] | None => [] end.

(** The children a node hands to DeepVisit / ShallowVisit, in order
    (the AllContents and Contents methods, expression.go:697-2062 and
    workflow.go:20-26).  Nil children are skipped by the visitors. *)
Definition children (e : expr) : list expr :=
  match e with
  | EAccess _ o ks => o :: ks
  | EBin _ _ _ l r => [l; r]
  | EUn _ _ x => [x]
  | EQuery _ _ x => [x]
  | EAttrOp _ _ _ v => [v]
  | EAttrsOp _ x => [x]
  | EBlock _ ss => ss
  | ECallMethod _ _ f args l => f :: args ++ opt_list l
  | ECallNamed _ _ f args l => f :: args ++ opt_list l
  | ECapMap _ _ _ c ms => c :: ms
  | ECase _ t os => t :: os
  | ECaseOption _ vs t => vs ++ [t]
  | ECollect _ t q ops => t :: q :: ops
  | EConcat _ ss => ss
  | EEpp _ _ b => [b]
  | EHeredoc _ _ t => [t]
  | EDef _ _ _ ps b => ps ++ [b]
  | EFunc _ _ _ ps b r => ps ++ opt_list r ++ [b]
  | EIf _ _ t th el => [t; th; el]
  | EKeyed _ k v => [k; v]
  | ELambda _ ps b r => ps ++ b :: opt_list r
  | EHash _ es => es
  | EList _ es => es
  | ECommaList _ es => es
  | ENode _ p hs b => opt_list p ++ hs ++ [b]
  | EParam _ _ v t _ => opt_list t ++ opt_list v
  | EProgram _ b _ => [b]
  | EResBody _ t ops => t :: ops
  | EResDefaults _ _ t ops => t :: ops
  | EResource _ _ t bs => t :: bs
  | EResOverride _ _ r ops => r :: ops
  | ESelEntry _ m v => [m; v]
  | ESelector _ l ss => l :: ss
  | ESite _ b => [b]
  | ETypeAlias _ _ t => [t]
  | ETypeDef _ _ _ b => [b]
  | ETypeMapping _ t m => [t; m]
  | EStep _ _ _ p d => opt_list p ++ opt_list d
  | EBool _ _ | EDefault _ | EFloat _ _ | EInt _ _ _ | EString _ _ | EUndef _
  | ENop _ | EQName _ _ | EQRef _ _ | ERegexp _ _ | ERenderString _ _
  | EReserved _ _ _ => []
  end.

(** Which structs implement the exported interfaces of expression.go:74-135 *)
Definition isDefinition (e : expr) : bool :=   (* Definition: ToDefinition *)
  match e with
  | ECapMap _ _ _ _ _ | EDef _ _ _ _ _ | EFunc _ _ _ _ _ _ | ENode _ _ _ _
  | ESite _ _ | ETypeAlias _ _ _ | ETypeDef _ _ _ _ | ETypeMapping _ _ _
  | EStep _ _ _ _ _ => true
  | _ => false
  end.
Definition isUnaryExpression (e : expr) : option expr :=   (* UnaryExpression: ToUnaryExpression *)
  match e with EUn _ _ x => Some x | _ => None end.
Definition isAbstractResource (e : expr) : bool :=   (* AbstractResource: Form *)
  match e with
  | EResDefaults _ _ _ _ | EResource _ _ _ _ | EResOverride _ _ _ _ => true
  | _ => false
  end.
Definition isLiteralValue (e : expr) : bool :=   (* LiteralValue: Value, ToLiteralValue *)
  match e with
  | EBool _ _ | EDefault _ | EFloat _ _ | EInt _ _ _ | EString _ _ | EUndef _
  | EQName _ _ | EQRef _ _ | ERegexp _ _ | ERenderString _ _ | EReserved _ _ _ => true
  | _ => false
  end.
Definition isNop (e : expr) : bool := match e with ENop _ => true | _ => false end. (* expression.go:629, 1467 *)

(** ** Induction over trees *)
Definition omap (A B : Type) (f : A -> B) (o : option A) : option B :=
  match o with Some x => Some (f x) | None => None end.
Definition lmax (l : list nat) : nat := fold_right Nat.max O l.

Fixpoint height (e : expr) : nat :=
  S match e with
    | EAccess _ x l | ECapMap _ _ _ x l | ECase _ x l | ECaseOption _ l x
    | EDef _ _ _ l x | EResBody _ x l | EResDefaults _ _ x l | EResource _ _ x l
    | EResOverride _ _ x l | ESelector _ x l => Nat.max (height x) (lmax (map height l))
    | EBin _ _ _ x y | EKeyed _ x y | ESelEntry _ x y | ETypeMapping _ x y =>
        Nat.max (height x) (height y)
    | EUn _ _ x | EQuery _ _ x | EAttrOp _ _ _ x | EAttrsOp _ x | EEpp _ _ x
    | EHeredoc _ _ x | EProgram _ x _ | ESite _ x | ETypeAlias _ _ x
    | ETypeDef _ _ _ x => height x
    | EBlock _ l | EConcat _ l | EHash _ l | EList _ l | ECommaList _ l => lmax (map height l)
    | ECallMethod _ _ x l o | ECallNamed _ _ x l o | EFunc _ _ _ l x o | ELambda _ l x o
    | ENode _ o l x =>
        Nat.max (height x) (Nat.max (lmax (map height l)) (lmax (opt_list (omap height o))))
    | ECollect _ x y l => Nat.max (height x) (Nat.max (height y) (lmax (map height l)))
    | EIf _ _ x y z => Nat.max (height x) (Nat.max (height y) (height z))
    | EParam _ _ o o' _ | EStep _ _ _ o o' =>
        Nat.max (lmax (opt_list (omap height o))) (lmax (opt_list (omap height o')))
    | EBool _ _ | EDefault _ | EFloat _ _ | EInt _ _ _ | EString _ _ | EUndef _
    | ENop _ | EQName _ _ | EQRef _ _ | ERegexp _ _ | ERenderString _ _
    | EReserved _ _ _ => O
    end.

Lemma height_max c l : In c l -> (height c <= lmax (map height l))%nat.
Proof.
  induction l as [|x l IH]; cbn; [tauto|].
  intros [->|H]; [lia|]. specialize (IH H). unfold lmax in *. lia.
Qed.
Lemma height_opt c o : In c (opt_list o) -> (height c <= lmax (opt_list (omap height o)))%nat.
Proof. destruct o; cbn; [|tauto]. intros [->|[]]. lia. Qed.

Lemma child_height e c : In c (children e) -> (height c < height e)%nat.
Proof.
  intros H.
  destruct e; cbn [children] in H; cbn [height];
    repeat first [ rewrite in_app_iff in H | progress cbn [In] in H ];
    repeat match type of H with _ \/ _ => destruct H as [H|H] end;
    try contradiction; subst; try lia;
    first [ apply height_max in H; lia | apply height_opt in H; lia ].
Qed.

Lemma expr_children_ind (P : expr -> Prop) :
  (forall e, (forall c, In c (children e) -> P c) -> P e) -> forall e, P e.
Proof.
  intros H e.
  enough (forall n e, (height e < n)%nat -> P e) by eauto.
  clear e. intros n; induction n as [|n IH]; intros e Hn; [lia|].
  apply H. intros c Hc. apply IH. apply child_height in Hc. lia.
Qed.
