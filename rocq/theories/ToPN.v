(** * ToPN: the ToPN methods of parser/expression.go and parser/workflow.go

    [None] stands for the Go panic raised by pn.Map for an illegal key
    (pn/pn.go:99-107), by the nil dereference in parametersEntry when a
    parameter is not a *Parameter, and by the failed type assertion in
    VariableExpression.NameOrIndex. *)
From Verif Require Import Base Float Ast Pn.

Fixpoint sequence (A : Type) (l : list (option A)) : option (list A) :=
  match l with
  | [] => Some []
  | None :: _ => None
  | Some x :: l' => match sequence l' with Some r => Some (x :: r) | None => None end
  end.
Definition obind (A B : Type) (o : option A) (f : A -> option B) : option B :=
  match o with Some x => f x | None => None end.
Notation "x <-? a ; b" := (obind a (fun x => b)) (at level 61, a at next level, right associativity).

Definition ent (k : string) (p : pn) : str * pn := (lit k, p).
Definition oent (k : string) (o : option pn) : list (str * pn) :=
  match o with Some p => [(lit k, p)] | None => [] end.
(** an optional child that is present must convert *)
Definition oseq (A : Type) (o : option (option A)) : option (option A) :=
  match o with None => Some None | Some None => None | Some (Some x) => Some (Some x) end.

Definition style_str (s : style) : string :=   (* workflow.go:7-10 *)
  match s with
  | SAction => "action" | SResource => "resource"
  | SStateHandler => "stateHandler" | SWorkflow => "workflow"
  end%string.
Definition form_str (f : rform) : string :=    (* expression.go:553-557 *)
  match f with Virtual => "virtual" | Exported => "exported" | Regular => "regular" end%string.
Definition form_entry (f : rform) : list (str * pn) :=
  match f with Regular => [] | _ => [ent "form" (PLit (LStr (lit (form_str f))))] end.

(** the operator text binaryOp is called with (expression.go:712 ... 2116) *)
Definition bin_name (k : bkind) (op : str) : str :=
  match k with
  | KAnd => lit "and" | KOr => lit "or" | KIn => lit "in" | KNamedAccess => lit "."
  | KArithmetic | KAssignment | KComparison | KMatch | KRelationship => op
  end.

Fixpoint toPN (e : expr) : option pn :=
  (* expression.go:2145-2151 pnBlockAsEntry *)
  let blockAs (b : expr) : option pn :=
    match b with
    | EBlock _ ss => l <-? sequence (map toPN ss); Some (PList l)
    | _ => x <-? toPN b; Some (PList [x])
    end in
  (* expression.go:2103-2122 parametersEntry: the entry of one parameter *)
  let paramEntry (q : expr) : option (str * pn) :=
    match q with
    | EParam _ name value typ rest =>
      t <-? oseq (omap toPN typ);
      v <-? oseq (omap toPN value);
      m <-? mkMap (oent "type" t ++ (if rest then [ent "splat" (PLit (LBool true))] else [])
                   ++ oent "value" v);
      Some (name, m)
    | _ => None
    end in
  let paramsEntry (ps : list expr) : option (list (str * pn)) :=
    match ps with
    | [] => Some []
    | _ => l <-? sequence (map paramEntry ps); m <-? mkMap l; Some [ent "params" m]
    end in
  let mapCall (name : string) (es : list (str * pn)) : option pn :=
    m <-? mkMap es; Some (asCall (lit name) m) in
  match e with
  | EAccess _ o ks =>                                    (* 712-714 *)
    x <-? toPN o; l <-? sequence (map toPN ks); Some (PCall (lit "access") (x :: l))
  | EBin _ k op l r =>                                   (* 2124-2126 binaryOp *)
    x <-? toPN l; y <-? toPN r; Some (PCall (bin_name k op) [x; y])
  | EUn _ KVariable x =>                                 (* 2033-2038, 2048 *)
    match x with
    | EQName _ n => Some (PCall (lit "var") [PLit (LStr n)])
    | EInt _ _ v => Some (PCall (lit "var") [PLit (LInt v)])
    | _ => None
    end
  | EUn _ k x =>
    p <-? toPN x;
    Some (PCall (lit match k with
                     | KNot => "!" | KParen => "paren" | KRender => "render" | KText => "str"
                     | KUnaryMinus => "-" | KUnfold => "unfold" | KVariable => "var" end%string) [p])
  | EQuery _ exported x =>                               (* 1079-1084, 2064-2069 *)
    let name := lit (if exported then "exported-query" else "virtual-query")%string in
    if isNop x then Some (PCall name [])
    else p <-? toPN x; Some (PCall name [p])
  | EAttrOp _ op name v =>                               (* 787-789 *)
    p <-? toPN v; Some (PCall op [PLit (LStr name); p])
  | EAttrsOp _ x => p <-? toPN x; Some (PCall (lit "splat-hash") [p])
  | EBlock _ ss => l <-? sequence (map toPN ss); Some (PCall (lit "block") l)
  | ECallMethod _ rv f args lam =>                       (* 884-895 *)
    pf <-? toPN f; l <-? sequence (map toPN args); b <-? oseq (omap toPN lam);
    mapCall (if rv then "call-method" else "invoke-method")%string
            (ent "functor" pf :: ent "args" (PList l) :: oent "block" b)
  | ECallNamed _ rv f args lam =>                        (* 912-923 *)
    pf <-? toPN f; l <-? sequence (map toPN args); b <-? oseq (omap toPN lam);
    mapCall (if rv then "call" else "invoke")%string
            (ent "functor" pf :: ent "args" (PList l) :: oent "block" b)
  | ECapMap _ kind cap comp ms =>                        (* 953-955 *)
    p <-? toPN comp; l <-? sequence (map toPN ms);
    Some (PCall kind [p; PList (PLit (LStr cap) :: l)])
  | ECase _ t os =>
    p <-? toPN t; l <-? sequence (map toPN os); Some (PCall (lit "case") [p; PList l])
  | ECaseOption _ vs t =>                                (* 991-993 *)
    l <-? sequence (map toPN vs); b <-? blockAs t;
    mkMap [ent "when" (PList l); ent "then" b]
  | ECollect _ t q ops =>                                (* 1015-1022 *)
    pt <-? toPN t; pq <-? toPN q; l <-? sequence (map toPN ops);
    mapCall "collect"%string (ent "type" pt :: ent "query" pq ::
                       match ops with [] => [] | _ => [ent "ops" (PList l)] end)
  | EConcat _ ss => l <-? sequence (map toPN ss); Some (PCall (lit "concat") l)
  | EEpp _ _ b => p <-? toPN b; Some (asCall (lit "epp") p)     (* 1065-1067 *)
  | EHeredoc _ syntax t =>                               (* 1126-1133 *)
    p <-? toPN t;
    mapCall "heredoc"%string ((match syntax with [] => [] | _ => [ent "syntax" (PLit (LStr syntax))] end)
                       ++ [ent "text" p])
  | EDef _ k name ps b =>                                (* 2084-2101 definitionPN *)
    pe <-? paramsEntry ps; pb <-? blockAs b;
    let '(tn, par) := match k with
                      | DApplication => ("application", [])
                      | DDefine => ("define", [])
                      | DClass parent => ("class", parent) end%string in
    mapCall tn (ent "name" (PLit (LStr name)) ::
                (match par with [] => [] | _ => [ent "parent" (PLit (LStr par))] end)
                ++ pe ++ [ent "body" pb])
  | EFunc _ plan name ps b ret =>
    pe <-? paramsEntry ps; pb <-? blockAs b; r <-? oseq (omap toPN ret);
    mapCall (if plan then "plan" else "function")%string
            (ent "name" (PLit (LStr name)) :: pe ++ ent "body" pb :: oent "returns" r)
  | EIf _ unless t th el =>                              (* 2071-2082 pnIf *)
    pt <-? toPN t;
    a <-? (if isNop th then Some [] else x <-? blockAs th; Some [ent "then" x]);
    b <-? (if isNop el then Some [] else x <-? blockAs el; Some [ent "else" x]);
    mapCall (if unless then "unless" else "if")%string (ent "test" pt :: a ++ b)
  | EKeyed _ k v => x <-? toPN k; y <-? toPN v; Some (PCall (lit "=>") [x; y])
  | ELambda _ ps b ret =>                                (* 1219-1231 *)
    pe <-? paramsEntry ps; r <-? oseq (omap toPN ret); pb <-? blockAs b;
    mapCall "lambda"%string (pe ++ oent "returns" r ++ [ent "body" pb])
  | EBool _ b => Some (PLit (LBool b))
  | EDefault _ => Some (PCall (lit "default") [])
  | EFloat _ f => Some (PLit (LFloat f))
  | EHash _ es => l <-? sequence (map toPN es); Some (PCall (lit "hash") l)
  | EInt _ radix v =>                                    (* 1357-1363 *)
    if radix =? 10 then Some (PLit (LInt v))
    else mapCall "int"%string [ent "radix" (PLit (LInt radix)); ent "value" (PLit (LInt v))]
  | EList _ es | ECommaList _ es => l <-? sequence (map toPN es); Some (PCall (lit "array") l)
  | EString _ s => Some (PLit (LStr s))
  | EUndef _ => Some (PLit LNil)
  | ENode _ par hs b =>                                  (* 1452-1463 *)
    l <-? sequence (map toPN hs); pp <-? oseq (omap toPN par); pb <-? blockAs b;
    mapCall "node"%string (ent "matches" (PList l) :: oent "parent" pp ++ [ent "body" pb])
  | ENop _ => Some (PCall (lit "nop") [])
  | EParam _ name v t rest =>                            (* 1524-1537 *)
    pt <-? oseq (omap toPN t); pv <-? oseq (omap toPN v);
    mapCall "param"%string (ent "name" (PLit (LStr name)) :: oent "type" pt ++
                     (if rest then [ent "splat" (PLit (LBool true))] else []) ++ oent "value" pv)
  | EProgram _ b _ => toPN b
  | EQName _ n => Some (PCall (lit "qn") [PLit (LStr n)])
  | EQRef _ n => Some (PCall (lit "qr") [PLit (LStr n)])
  | ERegexp _ s => Some (PCall (lit "regexp") [PLit (LStr s)])
  | ERenderString _ s => Some (PCall (lit "render-s") [PLit (LStr s)])
  | EReserved _ w _ => Some (PCall (lit "reserved") [PLit (LStr w)])
  | EResBody _ t ops =>
    pt <-? toPN t; l <-? sequence (map toPN ops);
    mapCall "resource-body"%string [ent "title" pt; ent "ops" (PList l)]
  | EResDefaults _ f t ops =>
    pt <-? toPN t; l <-? sequence (map toPN ops);
    mapCall "resource-defaults"%string (ent "type" pt :: ent "ops" (PList l) :: form_entry f)
  | EResource _ f t bs =>                                (* 1772-1784 *)
    pt <-? toPN t; l <-? sequence (map toPN bs);
    mapCall "resource"%string (ent "type" pt :: ent "bodies" (PList (flat_map asParameters l)) :: form_entry f)
  | EResOverride _ f r ops =>
    pr <-? toPN r; l <-? sequence (map toPN ops);
    mapCall "resource-override"%string (ent "resources" pr :: ent "ops" (PList l) :: form_entry f)
  | ESelEntry _ m v => x <-? toPN m; y <-? toPN v; Some (PCall (lit "=>") [x; y])
  | ESelector _ l ss => x <-? toPN l; ys <-? sequence (map toPN ss); Some (PCall (lit "?") [x; PList ys])
  | ESite _ b => p <-? toPN b; Some (asCall (lit "site") p)
  | ETypeAlias _ n t => p <-? toPN t; Some (PCall (lit "type-alias") [PLit (LStr n); p])
  | ETypeDef _ n par b =>
    p <-? toPN b; Some (PCall (lit "type-definition") [PLit (LStr n); PLit (LStr par); p])
  | ETypeMapping _ t m => x <-? toPN t; y <-? toPN m; Some (PCall (lit "type-mapping") [x; y])
  | EStep _ n st props d =>                              (* workflow.go:47-60 *)
    pp <-? oseq (omap toPN props); pd <-? oseq (omap toPN d);
    mapCall "step"%string (ent "name" (PLit (LStr n)) :: ent "style" (PLit (LStr (lit (style_str st)))) ::
                    oent "properties" pp ++ oent "definition" pd)
  end.
