(** * SpecVisit: specification of the visitors (C30) *)
From Verif Require Import Base Ast.

(** The number of nodes of a tree, counted over the fields of the structs (the
    list of definitions of a Program is an index into the tree, not part of
    it). *)
Fixpoint nodes (e : expr) : nat :=
  let all l := list_sum (map nodes l) in
  let opt o := match o with Some x => nodes x | None => O end in
  S match e with
    | EAccess _ operand keys => nodes operand + all keys
    | EBin _ _ _ lhs rhs => nodes lhs + nodes rhs
    | EUn _ _ x => nodes x
    | EQuery _ _ x => nodes x
    | EAttrOp _ _ _ value => nodes value
    | EAttrsOp _ x => nodes x
    | EBlock _ statements => all statements
    | ECallMethod _ _ functor args lambda => nodes functor + all args + opt lambda
    | ECallNamed _ _ functor args lambda => nodes functor + all args + opt lambda
    | ECapMap _ _ _ component mappings => nodes component + all mappings
    | ECase _ test options => nodes test + all options
    | ECaseOption _ values thn => all values + nodes thn
    | ECollect _ rtype query ops => nodes rtype + nodes query + all ops
    | EConcat _ segments => all segments
    | EEpp _ _ body => nodes body
    | EHeredoc _ _ text => nodes text
    | EDef _ _ _ params body => all params + nodes body
    | EFunc _ _ _ params body r => all params + nodes body + opt r
    | EIf _ _ test thn els => nodes test + nodes thn + nodes els
    | EKeyed _ key value => nodes key + nodes value
    | ELambda _ params body r => all params + nodes body + opt r
    | EHash _ entries => all entries
    | EList _ elements => all elements
    | ECommaList _ elements => all elements
    | ENode _ parent hosts body => opt parent + all hosts + nodes body
    | EParam _ _ value typ _ => opt value + opt typ
    | EProgram _ body _ => nodes body
    | EResBody _ title ops => nodes title + all ops
    | EResDefaults _ _ typeRef ops => nodes typeRef + all ops
    | EResource _ _ typeName bodies => nodes typeName + all bodies
    | EResOverride _ _ resources ops => nodes resources + all ops
    | ESelEntry _ matching value => nodes matching + nodes value
    | ESelector _ lhs selectors => nodes lhs + all selectors
    | ESite _ body => nodes body
    | ETypeAlias _ _ typ => nodes typ
    | ETypeDef _ _ _ body => nodes body
    | ETypeMapping _ typ mapping => nodes typ + nodes mapping
    | EStep _ _ _ props def => opt props + opt def
    | EBool _ _ | EDefault _ | EFloat _ _ | EInt _ _ _ | EString _ _ | EUndef _ | ENop _
    | EQName _ _ | EQRef _ _ | ERegexp _ _ | ERenderString _ _ | EReserved _ _ _ => O
    end.

(** The direct parts of a node in the documented visiting order. *)
Definition parts (e : expr) : list expr :=
  let opt (o : option expr) := match o with Some x => [x] | None => [] end in
  match e with
  | EAccess _ operand keys => [operand] ++ keys
  | EBin _ _ _ lhs rhs => [lhs] ++ [rhs]
  | EUn _ _ x => [x]
  | EQuery _ _ x => [x]
  | EAttrOp _ _ _ value => [value]
  | EAttrsOp _ x => [x]
  | EBlock _ statements => statements
  | ECallMethod _ _ functor args lambda => [functor] ++ args ++ opt lambda
  | ECallNamed _ _ functor args lambda => [functor] ++ args ++ opt lambda
  | ECapMap _ _ _ component mappings => [component] ++ mappings
  | ECase _ test options => [test] ++ options
  | ECaseOption _ values thn => values ++ [thn]
  | ECollect _ rtype query ops => [rtype] ++ [query] ++ ops
  | EConcat _ segments => segments
  | EEpp _ _ body => [body]
  | EHeredoc _ _ text => [text]
  | EDef _ _ _ params body => params ++ [body]
  | EFunc _ _ _ params body r => params ++ opt r ++ [body]
  | EIf _ _ test thn els => [test] ++ [thn] ++ [els]
  | EKeyed _ key value => [key] ++ [value]
  | ELambda _ params body r => params ++ [body] ++ opt r
  | EHash _ entries => entries
  | EList _ elements => elements
  | ECommaList _ elements => elements
  | ENode _ parent hosts body => opt parent ++ hosts ++ [body]
  | EParam _ _ value typ _ => opt typ ++ opt value
  | EProgram _ body _ => [body]
  | EResBody _ title ops => [title] ++ ops
  | EResDefaults _ _ typeRef ops => [typeRef] ++ ops
  | EResource _ _ typeName bodies => [typeName] ++ bodies
  | EResOverride _ _ resources ops => [resources] ++ ops
  | ESelEntry _ matching value => [matching] ++ [value]
  | ESelector _ lhs selectors => [lhs] ++ selectors
  | ESite _ body => [body]
  | ETypeAlias _ _ typ => [typ]
  | ETypeDef _ _ _ body => [body]
  | ETypeMapping _ typ mapping => [typ] ++ [mapping]
  | EStep _ _ _ props def => opt props ++ opt def
  | EBool _ _ | EDefault _ | EFloat _ _ | EInt _ _ _ | EString _ _ | EUndef _ | ENop _
  | EQName _ _ | EQRef _ _ | ERegexp _ _ | ERenderString _ _ | EReserved _ _ _ => []
  end.

(** [below e a anc d]: from [e], following the child numbers [a], one reaches
    [d]; [anc] are the nodes passed, nearest to [d] first, ending with [e]. *)
Inductive below : expr -> list nat -> list expr -> expr -> Prop :=
| below_child e i c : nth_error (parts e) i = Some c -> below e [i] [e] c
| below_deep e i c a anc d :
    nth_error (parts e) i = Some c -> below c a anc d -> below e (i :: a) (anc ++ [e]) d.

(** Document order of positions: a parent before its descendants, earlier
    siblings (and what is below them) before later ones. *)
Inductive before : list nat -> list nat -> Prop :=
| before_parent i b : before [] (i :: b)
| before_sibling i j a b : (i < j)%nat -> before (i :: a) (j :: b)
| before_deep i a b : before a b -> before (i :: a) (i :: b).
