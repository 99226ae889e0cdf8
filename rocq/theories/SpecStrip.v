(** * SpecStrip: trees without positions *)
From Verif Require Import Base Float Ast.

Local Notation z := (mkpos 0 0).
Fixpoint strip (e : expr) : expr :=
  match e with
  | EAccess _ a l => EAccess z (strip a) (map strip l)
  | EBin _ k op a b => EBin z k op (strip a) (strip b)
  | EUn _ k a => EUn z k (strip a)
  | EQuery _ x a => EQuery z x (strip a)
  | EAttrOp _ op n v => EAttrOp z op n (strip v)
  | EAttrsOp _ a => EAttrsOp z (strip a)
  | EBlock _ l => EBlock z (map strip l)
  | ECallMethod _ r f a l => ECallMethod z r (strip f) (map strip a) (option_map strip l)
  | ECallNamed _ r f a l => ECallNamed z r (strip f) (map strip a) (option_map strip l)
  | ECapMap _ k n c l => ECapMap z k n (strip c) (map strip l)
  | ECase _ t l => ECase z (strip t) (map strip l)
  | ECaseOption _ l t => ECaseOption z (map strip l) (strip t)
  | ECollect _ t q l => ECollect z (strip t) (strip q) (map strip l)
  | EConcat _ l => EConcat z (map strip l)
  | EEpp _ b e => EEpp z b (strip e)
  | EHeredoc _ s t => EHeredoc z s (strip t)
  | EDef _ k n ps b => EDef z k n (map strip ps) (strip b)
  | EFunc _ p n ps b r => EFunc z p n (map strip ps) (strip b) (option_map strip r)
  | EIf _ u a b c => EIf z u (strip a) (strip b) (strip c)
  | EKeyed _ a b => EKeyed z (strip a) (strip b)
  | ELambda _ ps b r => ELambda z (map strip ps) (strip b) (option_map strip r)
  | EBool _ b => EBool z b
  | EDefault _ => EDefault z
  | EFloat _ f => EFloat z f
  | EHash _ l => EHash z (map strip l)
  | EInt _ r v => EInt z r v
  | EList _ l => EList z (map strip l)
  | ECommaList _ l => ECommaList z (map strip l)
  | EString _ s => EString z s
  | EUndef _ => EUndef z
  | ENode _ p hs b => ENode z (option_map strip p) (map strip hs) (strip b)
  | ENop _ => ENop z
  | EParam _ n v t r => EParam z n (option_map strip v) (option_map strip t) r
  | EProgram _ b ds => EProgram z (strip b) (map strip ds)
  | EQName _ n => EQName z n
  | EQRef _ n => EQRef z n
  | ERegexp _ s => ERegexp z s
  | ERenderString _ s => ERenderString z s
  | EReserved _ w f => EReserved z w f
  | EResBody _ t l => EResBody z (strip t) (map strip l)
  | EResDefaults _ f t l => EResDefaults z f (strip t) (map strip l)
  | EResource _ f t l => EResource z f (strip t) (map strip l)
  | EResOverride _ f t l => EResOverride z f (strip t) (map strip l)
  | ESelEntry _ a b => ESelEntry z (strip a) (strip b)
  | ESelector _ a l => ESelector z (strip a) (map strip l)
  | ESite _ b => ESite z (strip b)
  | ETypeAlias _ n t => ETypeAlias z n (strip t)
  | ETypeDef _ n p b => ETypeDef z n p (strip b)
  | ETypeMapping _ t m => ETypeMapping z (strip t) (strip m)
  | EStep _ n s a b => EStep z n s (option_map strip a) (option_map strip b)
  end.
