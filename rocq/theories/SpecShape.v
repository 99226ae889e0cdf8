(** * SpecShape: the grammar of the trees Parse returns (C18), the options
      that gate nodes (C27), the definitions (C20, C21) and the names (C24)

    The nodes of a tree play roles: most are expressions, but some occur only
    as a part of one other node.  [grammar e] says which roles the parts of
    [e] play; a tree is well formed when every node of it satisfies [grammar]. *)
From Verif Require Import Base Float Ast Ctx SpecVisit SpecValidate.

(** ** Roles *)
Definition is_pair e := match e with EKeyed _ _ _ => true | _ => false end.
Definition is_param e := match e with EParam _ _ _ _ _ => true | _ => false end.
Definition is_selector_entry e := match e with ESelEntry _ _ _ => true | _ => false end.
Definition is_case_option e := match e with ECaseOption _ _ _ => true | _ => false end.
Definition is_resource_body e := match e with EResBody _ _ _ => true | _ => false end.
Definition is_attribute e := match e with EAttrOp _ _ _ _ | EAttrsOp _ _ => true | _ => false end.
Definition is_query e := match e with EQuery _ _ _ => true | _ => false end.
Definition is_lambda e := match e with ELambda _ _ _ _ => true | _ => false end.
Definition is_comma_list e := match e with ECommaList _ _ => true | _ => false end.
Definition is_text e := match e with EUn _ KText _ => true | _ => false end.
Definition is_template e := match e with EEpp _ _ _ => true | _ => false end.
Definition is_program e := match e with EProgram _ _ _ => true | _ => false end.
Definition is_nop e := match e with ENop _ => true | _ => false end.
(** the parameters or return values of a workflow step: a list of parameters *)
Definition is_parameters e := match e with EList _ (x :: _) => is_param x | _ => false end.
(** An expression: a node that may stand wherever a value or a statement may. *)
Definition is_expression e :=
  negb (is_pair e || is_param e || is_selector_entry e || is_case_option e || is_resource_body e
        || is_attribute e || is_query e || is_lambda e || is_comma_list e || is_text e || is_template e
        || is_program e || is_nop e || is_parameters e).
Definition is_block e := match e with EBlock _ _ => true | _ => false end.
Definition is_hash e := match e with EHash _ _ => true | _ => false end.
Definition is_statement e := is_expression e || is_comma_list e.
Definition is_segment e := match e with EString _ _ => true | _ => is_text e end.
Definition is_type e := match e with EQRef _ _ | EAccess _ (EQRef _ _) _ => true | _ => false end.
Definition is_host e :=
  match e with EString _ _ | ERegexp _ _ | EDefault _ | EConcat _ _ | EHeredoc _ _ _ => true | _ => false end.
Definition is_access e := match e with EAccess _ _ _ => true | _ => false end.
Definition is_named_access e := match e with EBin _ KNamedAccess _ _ _ => true | _ => false end.
Definition is_variable_name e := match e with EQName _ _ | EInt _ _ _ => true | _ => false end.
Definition is_string_text e := match e with EString _ _ | EConcat _ _ => true | _ => false end.
Definition is_component e := match e with EQName _ _ | EQRef _ _ | EAccess _ _ _ => true | _ => false end.
Definition is_else e := match e with EBlock _ _ | EIf _ _ _ _ _ | ENop _ => true | _ => false end.
Definition is_body e := match e with EBlock _ _ | EEpp _ _ _ => true | _ => false end.
Definition is_epp_lambda e := match e with ELambda _ _ (EEpp _ _ (EBlock _ _)) None => true | _ => false end.
Definition is_root e := is_block e || is_epp_lambda e.

(** A call of one of the functions that may be called without parentheses. *)
Definition statement_functions : list string := [
  "require"; "realize"; "include"; "contain"; "tag"; "debug"; "info"; "notice"; "warning"; "err"; "fail"; "import"; "break"; "next"; "return"]%string.
Definition is_statement_call e :=
  match e with ECallNamed _ _ (EQName _ n) _ _ => existsb (str_eqb n) (map lit statement_functions) | _ => false end.
(** C26: a comma separated list may stand among the statements of a block only
    when the last of them is such a call *)
Definition commas_allowed (statements : list expr) : Prop :=
  existsb is_comma_list statements = true -> exists before call, statements = before ++ [call] /\ is_statement_call call = true.

Definition all (f : expr -> bool) (l : list expr) : Prop := forallb f l = true.
Definition opt (f : expr -> bool) (o : option expr) : Prop :=
  match o with Some e => f e = true | None => True end.

(** the texts of the operators *)
Definition operator_texts (k : bkind) : list string :=
  match k with
  | KAnd | KOr | KIn | KNamedAccess => [""]
  | KArithmetic => ["+"; "-"; "*"; "/"; "%"; "<<"; ">>"]
  | KAssignment => ["="; "+="; "-="]
  | KComparison => ["=="; "!="; "<"; "<="; ">"; ">="]
  | KMatch => ["=~"; "!~"]
  | KRelationship => ["->"; "~>"; "<-"; "<~"]
  end%string.
Definition text_in (s : str) (l : list string) : Prop := In s (map lit l).
(** ** C18 *)
Definition grammar (e : expr) : Prop :=
  match e with
  | EAccess _ operand keys => is_expression operand = true /\ all is_expression keys
  | EBin _ k op lhs rhs => is_expression lhs = true /\ is_expression rhs = true /\ text_in op (operator_texts k)
  | EUn _ KVariable x => is_variable_name x = true
  | EUn _ _ x => is_expression x = true
  | EQuery _ _ x => is_expression x || is_nop x = true
  | EAttrOp _ op _ value => is_expression value = true /\ text_in op ["=>"; "+>"]%string
  | EAttrsOp _ x => is_expression x = true
  | EBlock _ statements => all is_statement statements /\ commas_allowed statements
  | ECallMethod _ _ functor args lambda =>
    is_named_access functor = true /\ all is_expression args /\ opt is_lambda lambda
  | ECallNamed _ _ functor args lambda =>
    is_expression functor = true /\ all is_expression args /\ opt is_lambda lambda
  | ECapMap _ kind _ component mappings => is_component component = true /\ all is_attribute mappings /\ text_in kind ["consumes"; "produces"]%string
  | ECase _ test options => is_expression test = true /\ all is_case_option options
  | ECaseOption _ values thn => all is_expression values /\ is_block thn = true
  | ECollect _ rtype query ops => is_expression rtype = true /\ is_query query = true /\ all is_attribute ops
  | EConcat _ segments => all is_segment segments
  | EEpp _ _ body => is_block body = true
  | EHeredoc _ _ text => is_string_text text = true
  | EDef _ _ _ params body => all is_param params /\ is_block body = true
  | EFunc _ _ _ params body r => all is_param params /\ is_block body = true /\ opt is_type r
  | EIf _ _ test thn els => is_expression test = true /\ is_block thn = true /\ is_else els = true
  | EKeyed _ key value => is_expression key = true /\ (is_expression value = true \/ is_parameters value = true)
  | ELambda _ params body r => all is_param params /\ is_body body = true /\ opt is_type r
  | EHash _ entries => all is_pair entries
  | EList _ elements => all is_expression elements \/ all is_param elements
  | ECommaList _ elements => all is_expression elements /\ (2 <= List.length elements)%nat
  | ENode _ parent hosts body => opt is_host parent /\ all is_host hosts /\ is_block body = true
  | EParam _ _ value typ _ => opt is_expression value /\ opt is_type typ
  | EProgram _ body _ => is_root body = true
  | EResBody _ title ops => is_expression title = true /\ all is_attribute ops
  | EResDefaults _ _ typeRef ops => is_expression typeRef = true /\ all is_attribute ops
  | EResource _ _ typeName bodies => is_expression typeName = true /\ all is_resource_body bodies
  | EResOverride _ _ resources ops => is_expression resources = true /\ all is_attribute ops
  | ESelEntry _ matching value => is_expression matching = true /\ is_expression value = true
  | ESelector _ lhs selectors => is_expression lhs = true /\ all is_selector_entry selectors
  | ESite _ body => is_block body = true
  | ETypeAlias _ _ typ => is_expression typ = true
  | ETypeDef _ _ _ body => is_block body = true
  | ETypeMapping _ typ mapping => is_access typ = true /\ is_expression mapping = true
  | EStep _ _ _ props def =>
    opt is_hash props /\ opt (fun d => is_block d || is_hash d) def
  | EBool _ _ | EDefault _ | EFloat _ _ | EInt _ _ _ | EString _ _ | EUndef _ | ENop _
  | EQName _ _ | EQRef _ _ | ERegexp _ _ | ERenderString _ _ | EReserved _ _ _ => True
  end.

(** ** C27: the nodes that exist only with an option *)
Definition allowed (o : opts) (e : expr) : Prop :=
  match e with
  | EFunc _ true _ _ _ _ => o_tasks o = true                      (* plan *)
  | EStep _ _ _ _ _ => o_workflow o = true                        (* workflow step *)
  | EEpp _ _ _ | ERenderString _ _ | EUn _ KRender _ => o_epp o = true  (* EPP template, text, <%= *)
  | EList _ elements =>                                           (* parameters as a value *)
    existsb is_param elements = true -> o_workflow o = true
  | _ => True
  end.

(** ** C20, C21: the definitions that are listed *)
Definition is_definition (e : expr) : bool :=
  match e with
  | EDef _ _ _ _ _          (* class, define, application *)
  | EFunc _ _ _ _ _ _       (* function, plan *)
  | ENode _ _ _ _ | ESite _ _ | ECapMap _ _ _ _ _
  | ETypeAlias _ _ _ | ETypeDef _ _ _ _ | ETypeMapping _ _ _ => true
  | _ => false
  end.

(** what the list holds: definitions, and workflow steps at the top *)
Definition is_listed (e : expr) : bool := is_definition e || match e with EStep _ _ _ _ _ => true | _ => false end.

(** ** C24: names *)
Definition qualify (scope : option str) (n : str) : str :=
  match scope with Some s => s ++ lit "::" ++ n | None => n end.
(** The scope a node gives to what is inside it, from the ancestors, nearest
    first: classes and workflows have their full name in the tree, plans their
    own name. *)
Fixpoint scope_of (anc : list expr) : option str :=
  match anc with
  | [] => None
  | EDef _ (DClass _) n _ _ :: _ => Some n
  | EStep _ n SWorkflow _ _ :: _ => Some n
  | EFunc _ true n _ _ _ :: anc' => Some (qualify (scope_of anc') n)
  | _ :: anc' => scope_of anc'
  end.
Definition outside_strings (anc : list expr) : Prop :=
  Forall (fun a => match a with EConcat _ _ => False | _ => True end) anc.
Definition named_node (e : expr) : option str :=
  match e with EDef _ (DClass _) n _ _ | EStep _ n _ _ _ => Some n | _ => None end.
