(** * SpecGrammar: the grammar of Puppet manifests

    [D ns n ks es]: in the scope [ns] (the names of the enclosing classes and
    plans) the tokens [ks] are an [n], and its tree (for lists: its trees) is
    [es].  Trees are written without positions.  Nothing here refers to the
    parser. *)
From Verif Require Import Base Float Tokens Ast Ctx SpecLex.
From Verif Require Export SpecStrip.
From Verif Require SpecShape.

(** ** Trees without positions *)
Notation z := (mkpos 0 0).
(** The definitions in a tree, each after those inside it, in source order *)
Definition opt_flat (f : expr -> list expr) (o : option expr) : list expr := match o with Some e => f e | None => [] end.
(** the steps of a workflow are not definitions of their own; what is inside them is *)
Definition inner_defs (f : expr -> list expr) (e : expr) : list expr := match e with EStep _ _ _ _ _ => removelast (f e) | _ => f e end.
Definition step_defs (f : expr -> list expr) (s : style) (body : option expr) : list expr :=
  match s, body with
  | SWorkflow, Some (EBlock _ l) => flat_map (inner_defs f) l
  | _, _ => opt_flat f body
  end.
Fixpoint defs (e : expr) : list expr :=
  match e with
  | EAccess _ a l => defs a ++ flat_map defs l
  | EBin _ _ _ a b => defs a ++ defs b
  | EUn _ _ a | EQuery _ _ a | EAttrOp _ _ _ a | EAttrsOp _ a | EEpp _ _ a | EHeredoc _ _ a => defs a
  | EBlock _ l | EConcat _ l | EHash _ l | EList _ l | ECommaList _ l => flat_map defs l
  | ECallMethod _ _ f a l | ECallNamed _ _ f a l => defs f ++ flat_map defs a ++ opt_flat defs l
  | ECapMap _ _ _ c l => defs c ++ flat_map defs l ++ [e]
  | ECase _ t l => defs t ++ flat_map defs l
  | ECaseOption _ l t => flat_map defs l ++ defs t
  | ECollect _ t q l => defs t ++ defs q ++ flat_map defs l
  | EDef _ _ _ ps b => flat_map defs ps ++ defs b ++ [e]
  | EFunc _ _ _ ps b r => flat_map defs ps ++ opt_flat defs r ++ defs b ++ [e]
  | EIf _ _ a b c => defs a ++ defs b ++ defs c
  | EKeyed _ a b => defs a ++ defs b
  | ELambda _ ps b r => flat_map defs ps ++ opt_flat defs r ++ defs b
  | ENode _ p hs b => flat_map defs hs ++ opt_flat defs p ++ defs b ++ [e]
  | EParam _ _ v t _ => opt_flat defs t ++ opt_flat defs v
  | EProgram _ b _ => defs b
  | EResBody _ t l | EResDefaults _ _ t l | EResource _ _ t l | EResOverride _ _ t l => defs t ++ flat_map defs l
  | ESelEntry _ a b => defs a ++ defs b
  | ESelector _ a l => defs a ++ flat_map defs l
  | ESite _ b => defs b ++ [e]
  | ETypeAlias _ _ t => defs t ++ [e]
  | ETypeDef _ _ _ b => defs b ++ [e]
  | ETypeMapping _ t m => defs t ++ defs m ++ [e]
  | EStep _ _ s a b => opt_flat defs a ++ step_defs defs s b ++ [e]
  | _ => []
  end.

(** ** Operators *)
(** precedence (1 binds tightest), token, kind of the node, text in the node *)
Definition operators : list (nat * tok * bkind * string) := [
  (1%nat, TIn, KIn, "");
  (2%nat, TMatch, KMatch, "=~"); (2%nat, TNotMatch, KMatch, "!~");
  (3%nat, TMultiply, KArithmetic, "*"); (3%nat, TDivide, KArithmetic, "/"); (3%nat, TRemainder, KArithmetic, "%");
  (4%nat, TAdd, KArithmetic, "+"); (4%nat, TSubtract, KArithmetic, "-");
  (5%nat, TLshift, KArithmetic, "<<"); (5%nat, TRshift, KArithmetic, ">>");
  (6%nat, TEqual, KComparison, "=="); (6%nat, TNotEqual, KComparison, "!=");
  (7%nat, TLess, KComparison, "<"); (7%nat, TLessEqual, KComparison, "<="); (7%nat, TGreater, KComparison, ">"); (7%nat, TGreaterEqual, KComparison, ">=");
  (8%nat, TAnd, KAnd, ""); (9%nat, TOr, KOr, "")]%string.
Definition assignments : list (tok * string) := [(TAssign, "="); (TAddAssign, "+="); (TSubtractAssign, "-=")]%string.
Definition edges : list (tok * string) := [(TInEdge, "->"); (TInEdgeSub, "~>"); (TOutEdge, "<-"); (TOutEdgeSub, "<~")]%string.
(** What a token after an expression continues: 0 a conditional, 1 a call,
    index, lambda, method or collector, 2 to 10 the operators, 11 a selector,
    12 a capability mapping, 13 a resource, 14 an assignment, 15 a
    relationship, 16 an argument list *)
Definition continues (t : tok) : option nat :=
  match t with
  | TElse | TElsif => Some 0
  | TLp | TPipe | TLcollect | TLlcollect | TLb | TDot => Some 1
  | TIn => Some 2
  | TMatch | TNotMatch => Some 3
  | TMultiply | TDivide | TRemainder => Some 4
  | TAdd | TSubtract => Some 5
  | TLshift | TRshift => Some 6
  | TEqual | TNotEqual => Some 7
  | TLess | TLessEqual | TGreater | TGreaterEqual => Some 8
  | TAnd => Some 9
  | TOr => Some 10
  | TQmark => Some 11
  | TProduces | TConsumes => Some 12
  | TLc => Some 13
  | TAssign | TAddAssign | TSubtractAssign => Some 14
  | TInEdge | TInEdgeSub | TOutEdge | TOutEdgeSub => Some 15
  | TComma => Some 16
  | _ => None
  end%nat.
(** [stops n t]: [t] does not continue an expression of the kinds up to [n] *)
Definition stops (n : nat) (t : tok) : Prop := match continues t with Some m => (n < m)%nat | None => True end.
Definition apart (n : nat) (ks : list tk) : Prop := match ks with k :: _ => stops n (k_tok k) | [] => True end.

(** ** Method calls *)
Fixpoint invoke (e : expr) : expr :=
  match e with EBin _ KNamedAccess _ l r => ECallMethod z true (EBin z KNamedAccess [] (invoke l) r) [] None | _ => e end.
Definition call (f : expr) (args : list expr) (lambda : option expr) : expr :=
  match f with
  | EBin _ KNamedAccess _ l r => ECallMethod z true (EBin z KNamedAccess [] (invoke l) r) args lambda
  | _ => ECallNamed z true f args lambda
  end.
(** a lambda after the arguments of a call belongs to that call *)
Definition complete (e : expr) : Prop := match e with ECallNamed _ _ _ _ None | ECallMethod _ _ _ _ None => False | _ => True end.
(** ** Key/value pairs among arguments and array elements *)
Definition keyed (e : expr) : Prop := match e with EKeyed _ _ _ => True | _ => False end.
Inductive grouped : list expr -> list expr -> Prop :=
| g_nil : grouped [] []
| g_hash es rest out : es <> [] -> Forall keyed es -> (match rest with e :: _ => ~ keyed e | [] => True end) ->
    grouped rest out -> grouped (es ++ rest) (EHash z es :: out)
| g_item e rest out : ~ keyed e -> grouped rest out -> grouped (e :: rest) (e :: out).
(** ** Statements *)
Definition statement_functions : list string := SpecShape.statement_functions.
Definition statement_name (e : expr) : Prop := exists n, e = EQName z n /\ In n (map lit statement_functions).
Definition comma_list (e : expr) : Prop := match e with ECommaList _ _ => True | _ => False end.
(** a call whose value is used, or not *)
Definition used (b : bool) (e : expr) : expr := match e with ECallNamed p _ f a l => ECallNamed p b f a l | _ => e end.
Definition arguments (e : expr) : list expr := match e with ECommaList _ l => l | _ => [used true e] end.
Inductive statements : list expr -> list expr -> Prop :=
| sts_nil : statements [] []
| sts_call f a rest out : statement_name f -> statements rest out ->
    statements (f :: a :: rest) (ECallNamed z false f (arguments a) None :: out)
| sts_name f : statement_name f -> statements [f] [f]
| sts_other e rest out : ~ statement_name e -> ~ comma_list e -> statements rest out -> statements (e :: rest) (used false e :: out).

(** ** Names *)
Definition unrooted (n : str) : str := match n with 58 :: 58 :: n' => n' | _ => n end.
Definition in_scope (ns : list str) (n : str) : str := join (lit "::") (ns ++ [n]).
(** the token is a word that may be the name of an attribute *)
Definition attribute_name (k : tk) (n : str) : Prop :=
  (k_tok k = TIdentifier /\ k_val k = VStr n) \/ exists w, n = lit w /\ In (w, k_tok k) (("default", TDefault) :: ("plan", TPlan) :: reserved)%string.
(** the token is the name of a definition *)
Definition defined_name (k : tk) (n : str) : Prop := In (k_tok k) [TIdentifier; TTypeName] /\ k_val k = VStr n.
(** words that are plain names as arguments and hash keys *)
Definition soft_words : list tok := [TType; TFunction; TPlan; TApplication; TConsumes; TProduces; TSite].
(** the right hand side of a type alias *)
Definition object (e : expr) : expr := EAccess z (EQRef z (lit "Object")) [e].
Definition alias_of (e : expr) : expr :=
  match e with EList _ [x] => object x | EHash _ _ => object e | _ => e end.
Definition inherited (n : str) (entries : list expr) : expr :=
  if str_eqb n (lit "Object") || str_eqb n (lit "TypeSet") then EAccess z (EQRef z n) [EHash z entries]
  else object (EHash z (EKeyed z (EString z (lit "parent")) (EQRef z n) :: entries)).

(** ** Workflow steps *)
Definition step_styles : list (string * style) := [("action", SAction); ("resource", SResource); ("stateHandler", SStateHandler); ("workflow", SWorkflow)]%string.
(** the token is the word of a kind of step *)
Definition style_word (k : tk) (s : style) : Prop := exists w, In (w, s) step_styles /\ k_tok k = TIdentifier /\ k_val k = VStr (lit w).
(** the tree is just such a word *)
Definition style_name (e : expr) : Prop := exists w s, In (w, s) step_styles /\ e = EQName z (lit w).
(** the names around the parts of a step *)
Definition inside (ns : list str) (s : style) (n : str) : list str := match s with SWorkflow => ns ++ [n] | _ => ns end.
Definition entry (k : string) (v : expr) : expr := EKeyed z (EQName z (lit k)) v.
(** a step that is repeated *)
Definition iterators : list string := ["times"; "range"; "each"]%string.
Definition iteration (name f : str) (params vars : list expr) : expr :=
  entry "iteration" (EHash z [entry "name" (EQName z name); entry "function" (EQName z f); entry "params" (EList z params); entry "vars" (EList z vars)]).
Definition hash_of (es : list expr) : option expr := match es with [] => None | _ => Some (EHash z es) end.
(** what the state of a resource says is computed later: [Deferred.new(...)] *)
Definition later (args : list expr) : expr :=
  ECallMethod z true (EBin z KNamedAccess [] (EQRef z (lit "Deferred")) (EQName z (lit "new"))) args None.
Fixpoint deferred (e : expr) : expr :=
  match e with
  | EList _ es => EList z (map deferred es)
  | EHash _ es => EHash z (map deferred es)
  | EKeyed _ k v => EKeyed z (deferred k) (deferred v)
  | ECallNamed _ _ (EQName _ f) args _ => later [EString z f; EList z (map deferred args)]
  | ECallNamed _ _ (EQRef _ t) args _ => later [EQName z (lit "new"); EList z (EQRef z t :: map deferred args)]
  | EUn _ KVariable (EQName _ n) => later [EString z ("$"%ch :: n)]
  | EUn _ KVariable _ => later [EString z ["$"%ch]]
  | _ => e
  end.

(** ** The grammar *)
Inductive nt : Set :=
| Atom | Chain | Primary | Unary | Op (n : nat) | Select | Expression | Resource | Assign | Rel
| Stmt | Rels | Stmts | Block
| ListOf (n : nt) | Handle | Arg | Entry | SelEntry | Param | AttrOp
| OptType | OptDefault | OptParams | OptReturn | Lambda | OptLambda | TypeRef | Args
| If (unless : bool) | Else (unless : bool) | Options | Bodies | Query | Host | Hosts | OptParent | Dotted
| StepOf (s : style) (n : str) | StepProp | ReturnParam | OptAlias | Alias | Iteration (n : str) | StepBody (s : style) | StateAttr | Steps.
Definition negate (k : tk) (v : tval) : tk := mktk (k_gap k) (k_brk k) (k_tok k) v (k_radix k) (k_txt k).
Definition is (t : tok) (k : tk) : Prop := k_tok k = t.
(** a keyword, with its value *)
Definition word (w : string) (t : tok) (k : tk) : Prop := is t k /\ k_val k = VStr (lit w).
Definition starts (t : tok) (ks : list tk) : Prop := match ks with k :: _ => is t k | [] => False end.
Definition paren (k : tk) : Prop := k_tok k = TLp \/ k_tok k = TWslp.
Section Grammar.
(** whether the parser knows about steps *)
Variable workflow : bool.
Inductive D (ns : list str) : nt -> list tk -> list expr -> Prop :=
(* atoms *)
| a_paren k1 ts k2 e : paren k1 -> D ns Rel ts [e] -> is TRp k2 -> D ns Atom (k1 :: ts ++ [k2]) [EUn z KParen e]
| a_list k1 ts k2 es l : is TLb k1 \/ is TListstart k1 -> D ns (ListOf Arg) ts es -> grouped es l -> is TRb k2 -> D ns Atom (k1 :: ts ++ [k2]) [EList z l]
| a_hash k1 ts k2 es : is TLc k1 -> D ns (ListOf Entry) ts es -> is TRc k2 -> D ns Atom (k1 :: ts ++ [k2]) [EHash z es]
| a_bool k b : is TBoolean k -> k_val k = VBool b -> D ns Atom [k] [EBool z b]
| a_int k v : is TInteger k -> k_val k = VInt v -> D ns Atom [k] [EInt z (k_radix k) v]
| a_float k f : is TFloat k -> k_val k = VFloat f -> D ns Atom [k] [EFloat z f]
| a_string k s : is TString k -> k_val k = VStr s -> D ns Atom [k] [EString z s]
| a_concat k es : is TConcatenatedString k -> k_val k = VExpr (EConcat z es) -> flat_map defs es = [] -> D ns Atom [k] [EConcat z es]
| a_reserved k s : is TAttr k \/ is TPrivate k -> k_val k = VStr s -> D ns Atom [k] [EReserved z s false]
| a_default k : is TDefault k -> D ns Atom [k] [EDefault z]
| a_regexp k s : is TRegexp k -> k_val k = VStr s -> D ns Atom [k] [ERegexp z s]
| a_undef k : is TUndef k -> D ns Atom [k] [EUndef z]
| a_type k s : is TTypeName k -> k_val k = VStr s -> k_txt k = s -> D ns Atom [k] [EQRef z s]
| a_name k s : is TIdentifier k -> k_val k = VStr s -> D ns Atom [k] [EQName z s]
| a_var k s : is TVariable k -> k_val k = VStr s -> D ns Atom [k] [EUn z KVariable (EQName z s)]
| a_numvar k v : is TVariable k -> k_val k = VInt v -> D ns Atom [k] [EUn z KVariable (EInt z 10 v)]
| a_text k s : is TRenderString k -> k_val k = VStr s -> D ns Atom [k] [ERenderString z s]
| a_if k ts e : is TIf k -> D ns (If false) (k :: ts) [e] -> D ns Atom (k :: ts) [e]
| a_unless k ts e : is TUnless k -> D ns (If true) (k :: ts) [e] -> D ns Atom (k :: ts) [e]
| a_case k1 ts1 e k2 ts2 os k3 : is TCase k1 -> D ns Expression ts1 [e] -> is TLc k2 -> D ns Options ts2 os -> is TRc k3 ->
    D ns Atom (k1 :: ts1 ++ k2 :: ts2 ++ [k3]) [ECase z e os]
(* definitions *)
| a_class k1 k2 n ts1 ps ts2 b : word "class" TClass k1 -> defined_name k2 n -> D (ns ++ [unrooted n]) OptParams ts1 ps -> D (ns ++ [unrooted n]) Block ts2 [b] ->
    D ns Atom (k1 :: k2 :: ts1 ++ ts2) [EDef z (DClass []) (in_scope ns (unrooted n)) ps b]
| a_subclass k1 k2 n ts1 ps k3 k4 pn ts2 b : word "class" TClass k1 -> defined_name k2 n -> D (ns ++ [unrooted n]) OptParams ts1 ps -> is TInherits k3 ->
    defined_name k4 pn \/ is TDefault k4 /\ pn = lit "default" -> D (ns ++ [unrooted n]) Block ts2 [b] ->
    D ns Atom (k1 :: k2 :: ts1 ++ k3 :: k4 :: ts2) [EDef z (DClass pn) (in_scope ns (unrooted n)) ps b]
| a_define k1 k2 n ts1 ps ts2 b : is TDefine k1 -> defined_name k2 n -> D ns OptParams ts1 ps -> D ns Block ts2 [b] ->
    D ns Atom (k1 :: k2 :: ts1 ++ ts2) [EDef z DDefine n ps b]
| a_application k1 k2 n ts1 ps ts2 b : is TApplication k1 -> defined_name k2 n -> D ns OptParams ts1 ps -> D ns Block ts2 [b] ->
    D ns Atom (k1 :: k2 :: ts1 ++ ts2) [EDef z DApplication n ps b]
| a_function k1 k2 n ts1 ps ts2 r ts3 b : is TFunction k1 -> defined_name k2 n -> D ns OptParams ts1 ps -> D ns OptReturn ts2 r -> D ns Block ts3 [b] ->
    D ns Atom (k1 :: k2 :: ts1 ++ ts2 ++ ts3) [EFunc z false n ps b (hd_error r)]
| a_plan k1 k2 n ts1 ps ts2 r ts3 b : is TPlan k1 -> defined_name k2 n -> D (ns ++ [n]) OptParams ts1 ps -> D (ns ++ [n]) OptReturn ts2 r -> D (ns ++ [n]) Block ts3 [b] ->
    D ns Atom (k1 :: k2 :: ts1 ++ ts2 ++ ts3) [EFunc z true n ps b (hd_error r)]
| a_node k1 ts1 hs ts2 p ts3 b : is TNode k1 -> D ns Hosts ts1 hs -> D ns OptParent ts2 p -> D ns Block ts3 [b] ->
    D ns Atom (k1 :: ts1 ++ ts2 ++ ts3) [ENode z (hd_error p) hs b]
| a_site k1 ts b : is TSite k1 -> D ns Block ts [b] -> D ns Atom (k1 :: ts) [ESite z b]
| a_typedef k1 k2 n ts b : word "type" TType k1 -> is TTypeName k2 -> k_val k2 = VStr n -> D ns Block ts [b] -> D ns Atom (k1 :: k2 :: ts) [ETypeDef z n [] b]
| a_subtype k1 k2 n k3 k4 pn ts b : word "type" TType k1 -> is TTypeName k2 -> k_val k2 = VStr n -> is TInherits k3 -> is TTypeName k4 -> k_val k4 = VStr pn -> D ns Block ts [b] ->
    D ns Atom (k1 :: k2 :: k3 :: k4 :: ts) [ETypeDef z n pn b]
(* calls, indexes, methods and collectors *)
| ch_atom ts e : D ns Atom ts [e] -> D ns Chain ts [e]
| ch_call ts1 e ts2 args ts3 l : D ns Chain ts1 [e] -> D ns Args ts2 args -> D ns OptLambda ts3 l -> D ns Chain (ts1 ++ ts2 ++ ts3) [call e args (hd_error l)]
| ch_type_call k ts2 args ts3 l : word "type" TType k -> D ns Args ts2 args -> D ns OptLambda ts3 l ->
    D ns Chain (k :: ts2 ++ ts3) [ECallNamed z true (EQName z (lit "type")) args (hd_error l)]
| ch_lambda ts1 e ts2 l : D ns Chain ts1 [e] -> complete e -> D ns Lambda ts2 [l] -> D ns Chain (ts1 ++ ts2) [call e [] (Some l)]
| ch_index ts1 e k1 ts2 es l k2 : D ns Chain ts1 [e] -> is TLb k1 -> D ns (ListOf Arg) ts2 es -> grouped es l -> is TRb k2 -> ~ statement_name e ->
    D ns Chain (ts1 ++ k1 :: ts2 ++ [k2]) [EAccess z e l]
| ch_statement ts1 e k1 ts2 es l k2 : D ns Chain ts1 [e] -> is TLb k1 -> D ns (ListOf Arg) ts2 es -> grouped es l -> is TRb k2 -> statement_name e ->
    D ns Chain (ts1 ++ k1 :: ts2 ++ [k2]) [ECallNamed z false e [EList z l] None]
| ch_dot ts1 e k ts2 r : D ns Chain ts1 [e] -> is TDot k -> D ns Atom ts2 [r] -> ~ starts TType ts2 ->
    D ns Chain (ts1 ++ k :: ts2) [EBin z KNamedAccess [] e r]
| ch_dot_type ts1 e k k2 : D ns Chain ts1 [e] -> is TDot k -> word "type" TType k2 ->
    D ns Chain (ts1 ++ [k; k2]) [EBin z KNamedAccess [] e (EQName z (lit "type"))]
| ch_collect ts1 e ts2 q k1 ts3 ops k2 : D ns Chain ts1 [e] -> D ns Query ts2 [q] -> is TLc k1 -> D ns (ListOf AttrOp) ts3 ops -> is TRc k2 ->
    D ns Chain (ts1 ++ ts2 ++ k1 :: ts3 ++ [k2]) [ECollect z e q ops]
| p_chain ts e : D ns Chain ts [e] -> D ns Primary ts [invoke e]
(* operators *)
| u_primary ts e : D ns Primary ts [e] -> D ns Unary ts [e]
| u_minus k k2 ts e : is TSubtract k -> D ns Primary (k2 :: ts) [e] -> ~ digit (first_byte (k_txt k2)) -> D ns Unary (k :: k2 :: ts) [EUn z KUnaryMinus e]
| u_negative_int k k2 ts v e : is TSubtract k -> k_gap k2 = [] -> digit (first_byte (k_txt k2)) -> is TInteger k2 -> k_val k2 = VInt v ->
    D ns Primary (negate k2 (VInt (- v)) :: ts) [e] -> D ns Unary (k :: k2 :: ts) [e]
| u_negative_float k k2 ts f e : is TSubtract k -> k_gap k2 = [] -> digit (first_byte (k_txt k2)) -> is TFloat k2 -> k_val k2 = VFloat f ->
    D ns Primary (negate k2 (VFloat (f64_neg f)) :: ts) [e] -> D ns Unary (k :: k2 :: ts) [e]
| u_plus k k2 ts e : is TAdd k -> k_gap k2 = [] -> digit (first_byte (k_txt k2)) -> is TInteger k2 \/ is TFloat k2 -> D ns Primary (k2 :: ts) [e] -> D ns Unary (k :: k2 :: ts) [e]
| u_not k ts e : is TNot k -> D ns Unary ts [e] -> D ns Unary (k :: ts) [EUn z KNot e]
| u_splat k ts e : is TMultiply k -> D ns Unary ts [e] -> D ns Unary (k :: ts) [EUn z KUnfold e]
| u_virtual k f ts1 e k1 ts2 bs k2 : is TAt k /\ f = Virtual \/ is TAtat k /\ f = Exported -> D ns Primary ts1 [e] -> is TLc k1 -> D ns Bodies ts2 bs -> ~ starts TMultiply ts2 -> is TRc k2 ->
    D ns Unary (k :: ts1 ++ k1 :: ts2 ++ [k2]) [EResource z f e bs]
| o_unary ts e : D ns Unary ts [e] -> D ns (Op 0) ts [e]
| o_up n ts e : (n < 9)%nat -> D ns (Op n) ts [e] -> D ns (Op (S n)) ts [e]
| o_bin n k kind text ts1 a ts2 b : In (S n, k_tok k, kind, text) operators -> D ns (Op (S n)) ts1 [a] -> D ns (Op n) ts2 [b] -> (text <> ""%string -> k_val k = VNil) ->
    D ns (Op (S n)) (ts1 ++ k :: ts2) [EBin z kind (lit text) a b]
| s_op ts e : D ns (Op 9) ts [e] -> D ns Select ts [e]
| s_many ts1 e k1 k2 ts2 es k3 : D ns Select ts1 [e] -> is TQmark k1 -> is TSelc k2 -> D ns (ListOf SelEntry) ts2 es -> is TRc k3 ->
    D ns Select (ts1 ++ k1 :: k2 :: ts2 ++ [k3]) [ESelector z e es]
| x_select ts e : D ns Select ts [e] -> D ns Expression ts [e]
| x_one ts1 e k1 ts2 s : D ns Select ts1 [e] -> is TQmark k1 -> D ns SelEntry ts2 [s] -> ~ starts TSelc ts2 ->
    D ns Expression (ts1 ++ k1 :: ts2) [ESelector z e [s]]
| x_render k ts e : is TRenderExpr k -> D ns Expression ts [e] -> D ns Expression (k :: ts) [EUn z KRender e]
(* resources *)
| r_expression ts e : D ns Expression ts [e] -> (workflow = true -> ~ style_name e) -> D ns Resource ts [e]
| r_resource ts1 e k1 ts2 bs k2 : D ns Expression ts1 [e] -> is TLc k1 -> D ns Bodies ts2 bs -> ~ starts TMultiply ts2 -> is TRc k2 ->
    D ns Resource (ts1 ++ k1 :: ts2 ++ [k2]) [EResource z Regular e bs]
| r_class k k1 ts2 bs k2 : word "class" TClass k -> is TLc k1 -> D ns Bodies ts2 bs -> ~ starts TMultiply ts2 -> is TRc k2 ->
    D ns Resource (k :: k1 :: ts2 ++ [k2]) [EResource z Regular (EQName z (lit "class")) bs]
| r_defaults ts1 n k1 k3 ts2 ops k2 : D ns Expression ts1 [EQRef z n] -> is TLc k1 -> is TIdentifier k3 \/ is TMultiply k3 -> D ns (ListOf AttrOp) (k3 :: ts2) ops -> is TRc k2 ->
    D ns Resource (ts1 ++ k1 :: k3 :: ts2 ++ [k2]) [EResDefaults z Regular (EQRef z n) ops]
| r_override ts1 n l k1 k3 ts2 ops k2 : D ns Expression ts1 [EAccess z (EQRef z n) l] -> ~ (n = lit "Resource" /\ zlen l = 1) ->
    is TLc k1 -> is TIdentifier k3 \/ is TMultiply k3 -> D ns (ListOf AttrOp) (k3 :: ts2) ops -> is TRc k2 ->
    D ns Resource (ts1 ++ k1 :: k3 :: ts2 ++ [k2]) [EResOverride z Regular (EAccess z (EQRef z n) l) ops]
| r_all ts1 n l k1 k3 ts2 ops k2 : D ns Expression ts1 [EAccess z (EQRef z n) [l]] -> n = lit "Resource" ->
    is TLc k1 -> is TIdentifier k3 \/ is TMultiply k3 -> D ns (ListOf AttrOp) (k3 :: ts2) ops -> is TRc k2 ->
    D ns Resource (ts1 ++ k1 :: k3 :: ts2 ++ [k2]) [EResDefaults z Regular (EAccess z (EQRef z n) [l]) ops]
| r_collect ts1 e ts2 q : D ns Chain ts1 [e] -> D ns Query ts2 [q] -> D ns Resource (ts1 ++ ts2) [ECollect z e q []]
| r_alias k1 k2 n k3 ts e : word "type" TType k1 -> is TTypeName k2 -> k_val k2 = VStr n -> is TAssign k3 -> D ns Expression ts [e] ->
    D ns Resource (k1 :: k2 :: k3 :: ts) [ETypeAlias z n (alias_of e)]
| r_object k1 k2 n k3 k4 pn k5 ts es k6 : word "type" TType k1 -> is TTypeName k2 -> k_val k2 = VStr n -> is TAssign k3 -> is TTypeName k4 -> k_val k4 = VStr pn ->
    is TLc k5 -> D ns (ListOf Entry) ts es -> is TRc k6 ->
    D ns Resource (k1 :: k2 :: k3 :: k4 :: k5 :: ts ++ [k6]) [ETypeAlias z n (inherited pn es)]
(* assignments, relationships, statements *)
| as_resource ts e : D ns Resource ts [e] -> D ns Assign ts [e]
| as_assign ts1 e k s ts2 r : D ns Resource ts1 [e] -> In (k_tok k, s) assignments -> k_val k = VNil -> D ns Assign ts2 [r] ->
    D ns Assign (ts1 ++ k :: ts2) [EBin z KAssignment (lit s) e r]
| rel_assign ts e : D ns Assign ts [e] -> D ns Rel ts [e]
| rel_edge ts1 e k s ts2 r : D ns Rel ts1 [e] -> In (k_tok k, s) edges -> k_val k = VNil -> D ns Assign ts2 [r] -> D ns Rel (ts1 ++ k :: ts2) [EBin z KRelationship (lit s) e r]
| st_rel ts e : D ns Rel ts [e] -> D ns Stmt ts [e]
| st_list ts e ts2 es : D ns Rel ts [e] -> D ns Rels ts2 es -> D ns Stmt (ts ++ ts2) [ECommaList z (e :: es)]
| rels_one k ts e : is TComma k -> D ns Rel ts [e] -> D ns Rels (k :: ts) [e]
| rels_more k ts e ts2 es : is TComma k -> D ns Rel ts [e] -> D ns Rels ts2 es -> D ns Rels (k :: ts ++ ts2) (e :: es)
| sts_none : D ns Stmts [] []
| sts_next ts e ts2 es : D ns Stmt ts [e] -> D ns Stmts ts2 es -> apart 16 ts2 -> D ns Stmts (ts ++ ts2) (e :: es)
| sts_semi ts e k ts2 es : D ns Stmt ts [e] -> is TSemicolon k -> D ns Stmts ts2 es -> D ns Stmts (ts ++ k :: ts2) (e :: es)
| b_braces k1 ts k2 es out : is TLc k1 -> D ns Stmts ts es -> statements es out -> is TRc k2 -> D ns Block (k1 :: ts ++ [k2]) [EBlock z out]
(* lists *)
| l_nil n : D ns (ListOf n) [] []
| l_one n ts e : D ns n ts [e] -> D ns (ListOf n) ts [e]
| l_more n ts e k ts2 es : D ns n ts [e] -> is TComma k -> D ns (ListOf n) ts2 es -> D ns (ListOf n) (ts ++ k :: ts2) (e :: es)
| h_rel k ts e : ~ In (k_tok k) soft_words -> D ns Rel (k :: ts) [e] -> D ns Handle (k :: ts) [e]
| h_word k w : In (k_tok k) soft_words -> k_val k = VStr w -> D ns Handle [k] [EQName z w]
| h_call k w ts2 args ts3 l : In (k_tok k) soft_words -> k_val k = VStr w -> D ns Args ts2 args -> D ns OptLambda ts3 l ->
    D ns Handle (k :: ts2 ++ ts3) [ECallNamed z true (EQName z w) args (hd_error l)]
| arg_plain ts e : D ns Handle ts [e] -> D ns Arg ts [e]
| arg_entry ts e : D ns Entry ts [e] -> D ns Arg ts [e]
| e_entry ts1 a k ts2 b : D ns Handle ts1 [a] -> is TFarrow k -> D ns Handle ts2 [b] -> D ns Entry (ts1 ++ k :: ts2) [EKeyed z a b]
| se_entry ts1 a k ts2 b : D ns Expression ts1 [a] -> is TFarrow k -> D ns Expression ts2 [b] -> D ns SelEntry (ts1 ++ k :: ts2) [ESelEntry z a b]
| args_parens k1 ts k2 es l : is TLp k1 -> D ns (ListOf Arg) ts es -> grouped es l -> is TRp k2 -> D ns Args (k1 :: ts ++ [k2]) l
| param_plain ts1 t rest k n ts2 v : D ns OptType ts1 t -> (rest = [] \/ exists s, rest = [s] /\ is TMultiply s) ->
    is TVariable k -> k_val k = VStr n -> D ns OptDefault ts2 v ->
    D ns Param (ts1 ++ rest ++ k :: ts2) [EParam z n (hd_error v) (hd_error t) (match rest with [] => false | _ => true end)]
| ot_none : D ns OptType [] []
| ot_type ts t : D ns TypeRef ts [t] -> D ns OptType ts [t]
| od_none : D ns OptDefault [] []
| od_value k ts e : is TAssign k -> D ns Expression ts [e] -> D ns OptDefault (k :: ts) [e]
| ao_splat k1 k2 ts e : is TMultiply k1 -> is TFarrow k2 -> D ns Expression ts [e] -> D ns AttrOp (k1 :: k2 :: ts) [EAttrsOp z e]
| ao_attr k1 n k2 s ts e : attribute_name k1 n -> In (k_tok k2, s) [(TFarrow, "=>"); (TParrow, "+>")]%string -> k_val k2 = VNil -> D ns Expression ts [e] ->
    D ns AttrOp (k1 :: k2 :: ts) [EAttrOp z (lit s) n e]
(* parameters and lambdas *)
| op_none : D ns OptParams [] []
| op_params k1 ts k2 ps : paren k1 -> D ns (ListOf Param) ts ps -> is TRp k2 -> D ns OptParams (k1 :: ts ++ [k2]) ps
| or_none : D ns OptReturn [] []
| or_type k ts t : is TRshift k -> D ns TypeRef ts [t] -> D ns OptReturn (k :: ts) [t]
| t_name k n : is TTypeName k -> k_val k = VStr n -> D ns TypeRef [k] [EQRef z n]
| t_args k n k1 ts es l k2 : is TTypeName k -> k_val k = VStr n -> is TLb k1 -> D ns (ListOf Arg) ts es -> grouped es l -> is TRb k2 ->
    D ns TypeRef (k :: k1 :: ts ++ [k2]) [EAccess z (EQRef z n) l]
| la_lambda k1 ts1 ps k2 ts2 r ts3 b : is TPipe k1 -> D ns (ListOf Param) ts1 ps -> is TPipeEnd k2 -> D ns OptReturn ts2 r -> D ns Block ts3 [b] ->
    D ns Lambda (k1 :: ts1 ++ k2 :: ts2 ++ ts3) [ELambda z ps b (hd_error r)]
| ol_none : D ns OptLambda [] []
| ol_lambda ts l : D ns Lambda ts [l] -> D ns OptLambda ts [l]
(* conditionals *)
| if_then u k ts1 c ts2 b ts3 e : D ns (Op 9) ts1 [c] -> D ns Block ts2 [b] -> D ns (Else u) ts3 [e] -> D ns (If u) (k :: ts1 ++ ts2 ++ ts3) [EIf z u c b e]
| el_none u : D ns (Else u) [] [ENop z]
| el_else u k ts b : is TElse k -> D ns Block ts [b] -> D ns (Else u) (k :: ts) [b]
| el_elsif k ts e : is TElsif k -> D ns (If false) (k :: ts) [e] -> D ns (Else false) (k :: ts) [e]
| opt_one ts1 vs k ts2 b : D ns (ListOf Expression) ts1 vs -> vs <> [] -> is TColon k -> D ns Block ts2 [b] -> D ns Options (ts1 ++ k :: ts2) [ECaseOption z vs b]
| opt_more ts1 vs k ts2 b ts3 os : D ns (ListOf Expression) ts1 vs -> vs <> [] -> is TColon k -> D ns Block ts2 [b] -> D ns Options ts3 os ->
    D ns Options (ts1 ++ k :: ts2 ++ ts3) (ECaseOption z vs b :: os)
(* resource bodies, collector queries *)
| bo_one ts1 t k ts2 ops : D ns Expression ts1 [t] -> is TColon k -> D ns (ListOf AttrOp) ts2 ops -> D ns Bodies (ts1 ++ k :: ts2) [EResBody z t ops]
| bo_last ts1 t k ts2 ops k2 : D ns Expression ts1 [t] -> is TColon k -> D ns (ListOf AttrOp) ts2 ops -> is TSemicolon k2 ->
    D ns Bodies (ts1 ++ k :: ts2 ++ [k2]) [EResBody z t ops]
| bo_more ts1 t k ts2 ops k2 ts3 bs : D ns Expression ts1 [t] -> is TColon k -> D ns (ListOf AttrOp) ts2 ops -> is TSemicolon k2 -> D ns Bodies ts3 bs ->
    D ns Bodies (ts1 ++ k :: ts2 ++ k2 :: ts3) (EResBody z t ops :: bs)
| q_empty k1 k2 x : is TLcollect k1 /\ is TRcollect k2 /\ x = false \/ is TLlcollect k1 /\ is TRrcollect k2 /\ x = true -> D ns Query [k1; k2] [EQuery z x (ENop z)]
| q_query k1 ts e k2 x : is TLcollect k1 /\ is TRcollect k2 /\ x = false \/ is TLlcollect k1 /\ is TRrcollect k2 /\ x = true -> D ns Expression ts [e] ->
    D ns Query (k1 :: ts ++ [k2]) [EQuery z x e]
(* node names *)
| ho_name ts s : D ns Dotted ts [EString z s] -> D ns Host ts [EString z s]
| ho_string k s : is TString k -> k_val k = VStr s -> D ns Host [k] [EString z s]
| ho_regexp k s : is TRegexp k -> k_val k = VStr s -> D ns Host [k] [ERegexp z s]
| ho_concat k es : is TConcatenatedString k -> k_val k = VExpr (EConcat z es) -> flat_map defs es = [] -> D ns Host [k] [EConcat z es]
| ho_default k : is TDefault k -> D ns Host [k] [EDefault z]
| do_one k s : defined_name k s -> D ns Dotted [k] [EString z s]
| do_more k s d ts s2 : defined_name k s -> is TDot d -> D ns Dotted ts [EString z s2] -> D ns Dotted (k :: d :: ts) [EString z (s ++ "."%ch :: s2)]
| hs_one ts h : D ns Host ts [h] -> D ns Hosts ts [h]
| hs_last ts h k : D ns Host ts [h] -> is TComma k -> D ns Hosts (ts ++ [k]) [h]
| hs_more ts h k ts2 hs : D ns Host ts [h] -> is TComma k -> D ns Hosts ts2 hs -> D ns Hosts (ts ++ k :: ts2) (h :: hs)
| pa_none : D ns OptParent [] []
| pa_host k ts h : is TInherits k -> D ns Host ts [h] -> D ns OptParent (k :: ts) [h]
(* steps *)
| r_step k1 s k2 n ts e : workflow = true -> style_word k1 s -> attribute_name k2 n -> stops 13 (k_tok k2) -> D ns (StepOf s n) ts [e] -> D ns Resource (k1 :: k2 :: ts) [e]
| step_parts s n k1 ts1 ps k2 ts2 it ts3 b : is TLc k1 -> D (inside ns s n) (ListOf StepProp) ts1 ps -> is TRc k2 ->
    D (inside ns s n) (Iteration n) ts2 it -> D (inside ns s n) (StepBody s) ts3 b ->
    D ns (StepOf s n) (k1 :: ts1 ++ k2 :: ts2 ++ ts3) [EStep z (in_scope ns n) s (hash_of (ps ++ it)) (hd_error b)]
| sp_property k1 n k2 ts v : attribute_name k1 n -> n <> lit "parameters" -> n <> lit "returns" -> is TFarrow k2 -> D ns Handle ts [v] ->
    D ns StepProp (k1 :: k2 :: ts) [EKeyed z (EQName z n) v]
| sp_parameters k1 k2 k3 ts ps k4 : attribute_name k1 (lit "parameters") -> is TFarrow k2 -> paren k3 -> D ns (ListOf Param) ts ps -> is TRp k4 ->
    D ns StepProp (k1 :: k2 :: k3 :: ts ++ [k4]) [entry "parameters" (EList z ps)]
| sp_returns k1 k2 k3 ts ps k4 : attribute_name k1 (lit "returns") -> is TFarrow k2 -> paren k3 -> D ns (ListOf ReturnParam) ts ps -> is TRp k4 ->
    D ns StepProp (k1 :: k2 :: k3 :: ts ++ [k4]) [entry "returns" (EList z ps)]
| rp_param ts1 t k n ts2 v : D ns OptType ts1 t -> is TVariable k -> k_val k = VStr n -> D ns OptAlias ts2 v ->
    D ns ReturnParam (ts1 ++ k :: ts2) [EParam z n (hd_error v) (hd_error t) false]
| oa_none : D ns OptAlias [] []
| oa_one k ts e : is TAssign k -> D ns Alias ts [e] -> D ns OptAlias (k :: ts) [e]
| oa_many k k1 ts es k2 : is TAssign k -> paren k1 -> D ns (ListOf Alias) ts es -> is TRp k2 -> D ns OptAlias (k :: k1 :: ts ++ [k2]) [EList z es]
| al_name k n : attribute_name k n -> D ns Alias [k] [EString z n]
| it_none n : D ns (Iteration n) [] []
| it_some n name pre k f k1 ts1 ps k2 k3 ts2 vs k4 :
    pre = [] /\ name = n \/ (exists v a, pre = [v; a] /\ is TVariable v /\ k_val v = VStr name /\ is TAssign a) ->
    is TIdentifier k -> k_val k = VStr f -> In f (map lit iterators) -> paren k1 -> D ns (ListOf Param) ts1 ps -> is TRp k2 ->
    is TPipe k3 -> D ns (ListOf Param) ts2 vs -> is TPipeEnd k4 ->
    D ns (Iteration n) (pre ++ k :: k1 :: ts1 ++ k2 :: k3 :: ts2 ++ [k4]) [iteration name f ps vs]
| sb_block s ts b : s = SAction \/ s = SStateHandler -> D ns Block ts [b] -> D ns (StepBody s) ts [b]
| sb_state k1 ts es k2 : is TLc k1 -> D ns (ListOf StateAttr) ts es -> is TRc k2 -> flat_map defs es = [] ->
    D ns (StepBody SResource) (k1 :: ts ++ [k2]) (match es with [] => [] | _ => [EHash z (map deferred es)] end)
| sb_steps k1 ts es k2 : is TLc k1 -> D ns Steps ts es -> is TRc k2 ->
    D ns (StepBody SWorkflow) (k1 :: ts ++ [k2]) (match es with [] => [] | _ => [EBlock z es] end)
| sa_attr k1 n k2 ts e : attribute_name k1 n -> is TFarrow k2 -> D ns Expression ts [e] -> D ns StateAttr (k1 :: k2 :: ts) [EKeyed z (EQName z n) e]
| steps_none : D ns Steps [] []
| steps_step k1 s k2 n ts e ts2 es : style_word k1 s -> attribute_name k2 n -> D ns (StepOf s n) ts [e] -> D ns Steps ts2 es -> D ns Steps (k1 :: k2 :: ts ++ ts2) (e :: es)
| steps_function k1 k2 n ts1 ps ts2 r ts3 b ts4 es : is TFunction k1 -> defined_name k2 n -> D ns OptParams ts1 ps -> D ns OptReturn ts2 r -> D ns Block ts3 [b] ->
    D ns Steps ts4 es -> D ns Steps (k1 :: k2 :: ts1 ++ ts2 ++ ts3 ++ ts4) (EFunc z false n ps b (hd_error r) :: es).
End Grammar.
