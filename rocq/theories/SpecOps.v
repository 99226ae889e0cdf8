(** * SpecOps: writing operator expressions with as few parentheses as the
    documented precedence allows

    Nothing here refers to tokens or to the parser. *)
From Verif Require Import Base Float Tokens Ast Ctx SpecLex SpecManifest.

(** precedence (1 binds tightest), how it is written, the node *)
Definition binary_operators : list (nat * string * bkind) := [
  (1%nat, "in", KIn); (2%nat, "=~", KMatch); (2%nat, "!~", KMatch);
  (3%nat, "*", KArithmetic); (3%nat, "/", KArithmetic); (3%nat, "%", KArithmetic);
  (4%nat, "+", KArithmetic); (4%nat, "-", KArithmetic); (5%nat, "<<", KArithmetic); (5%nat, ">>", KArithmetic);
  (6%nat, "==", KComparison); (6%nat, "!=", KComparison);
  (7%nat, "<", KComparison); (7%nat, "<=", KComparison); (7%nat, ">", KComparison); (7%nat, ">=", KComparison);
  (8%nat, "and", KAnd); (9%nat, "or", KOr)]%string.
Inductive optree : Set :=
| OVar (w : str)                                  (* $w *)
| OInt (n : Z)
| OMinus (a : optree) | ONot (a : optree) | OSplat (a : optree)
| OBin (n : nat) (w : string) (k : bkind) (a b : optree).
Fixpoint legal (t : optree) : Prop :=
  match t with
  | OVar w => qualified lower w
  | OInt n => 0 <= n < 2 ^ 63
  | OMinus a | ONot a | OSplat a => legal a
  | OBin n w k a b => In (n, w, k) binary_operators /\ legal a /\ legal b
  end.
(** the node of a binary operator; and, or and in have no operator text *)
Definition binary (w : string) (k : bkind) (a b : expr) : expr :=
  EBin (mkpos 0 0) k (match k with KIn | KAnd | KOr => [] | _ => lit w end) a b.
Fixpoint tree_of (t : optree) : expr :=
  match t with
  | OVar w => EUn (mkpos 0 0) KVariable (EQName (mkpos 0 0) w)
  | OInt n => EInt (mkpos 0 0) 10 n
  | OMinus a => EUn (mkpos 0 0) KUnaryMinus (tree_of a)
  | ONot a => EUn (mkpos 0 0) KNot (tree_of a)
  | OSplat a => EUn (mkpos 0 0) KUnfold (tree_of a)
  | OBin n w k a b => binary w k (tree_of a) (tree_of b)
  end.
Definition precedence (t : optree) : nat := match t with OBin n _ _ _ _ => n | _ => 0 end.
(** the operand of a minus sign: not a number (that would be a negative number) *)
Definition signable (t : optree) : bool := match t with OVar _ => true | _ => false end.
Definition parens (needed : bool) (ws : list str) : list str := if needed then [lit "("] ++ ws ++ [lit ")"] else ws.
(** the words [t] is written as *)
Fixpoint words (t : optree) : list str :=
  match t with
  | OVar w => ["$"%ch :: w]
  | OInt n => [decimal_text n]
  | OMinus a => lit "-" :: parens (negb (signable a)) (words a)
  | ONot a => lit "!" :: parens (0 <? precedence a)%nat (words a)
  | OSplat a => lit "*" :: parens (0 <? precedence a)%nat (words a)
  | OBin n w k a b =>
    parens (n <? precedence a)%nat (words a) ++ [lit w] ++ parens (n - 1 <? precedence b)%nat (words b)
  end.
Definition written (t : optree) : str := join (lit " ") (words t).
(** a tree without the nodes of its parentheses *)
Fixpoint unparen (e : expr) : expr :=
  match e with
  | EUn p KParen a => unparen a
  | EUn p k a => EUn p k (unparen a)
  | EBin p k op a b => EBin p k op (unparen a) (unparen b)
  | _ => e
  end.

(** ** Statement calls *)
(** an operator expression that begins with a variable, a number or ! *)
Fixpoint begins_plain (t : optree) : Prop :=
  match t with
  | OVar _ | OInt _ | ONot _ => True
  | OMinus _ | OSplat _ => False
  | OBin n _ _ a _ => (precedence a <= n)%nat /\ begins_plain a
  end.
Definition comma_separated (ts : list optree) : str := join (lit " , ") (map written ts).
(** ** Classes inside classes *)
Fixpoint nested (names : list str) : list str :=
  match names with
  | [] => []
  | n :: rest => [lit "class"; n; lit "{"] ++ nested rest ++ [lit "}"]
  end.
(** their trees, inside classes called [outer] *)
Fixpoint nest (outer names : list str) : list expr :=
  match names with
  | [] => []
  | n :: rest => [EDef (mkpos 0 0) (DClass []) (join (lit "::") (outer ++ [n])) [] (EBlock (mkpos 0 0) (nest (outer ++ [n]) rest))]
  end.
