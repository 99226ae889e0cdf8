(** * SpecRules: what a manifest that validates without errors does not contain (C58) *)
From Verif Require Import Base Ast Validator SpecVisit SpecValidate SpecOptions.

(** Validation of the tree [e] ends without a panic and reports no error
    (it may report warnings and deprecations). *)
Definition passes (k : checker) (text : str) (s : strictness) (e : expr) : Prop :=
  exists l, validate k text s e = inl l /\ forall i, In i l -> i_sev i <> SevError.

Definition is_block (e : expr) : Prop := exists q ss, e = EBlock q ss.
Definition is_program (e : expr) : Prop := exists q b ds, e = EProgram q b ds.
Definition is_class (e : expr) : Prop := exists q parent n ps b, e = EDef q (DClass parent) n ps b.
(** The ancestors (nearest first) are blocks, up to a program, a class or the root. *)
Definition at_top (anc : list expr) : Prop :=
  exists blocks up, anc = blocks ++ up /\ Forall is_block blocks
    /\ (up = [] \/ exists c up', up = c :: up' /\ (is_program c \/ is_class c)).
(** At most one block is between the node and a program (or class, or the root);
    when there is one, the program is its parent. *)
Definition at_very_top (anc : list expr) : Prop :=
  anc = [] \/ (exists c up, anc = c :: up /\ (is_program c \/ is_class c))
  \/ exists b c up, anc = b :: c :: up /\ is_block b /\ is_program c.

(** The definitions that must be at the top, those that must be at the very top *)
Definition top_definition (e : expr) : Prop :=
  match e with EDef _ (DClass _ | DDefine) _ _ _ | ENode _ _ _ _ => True | _ => False end.
Definition very_top_definition (e : expr) : Prop :=
  match e with EFunc _ false _ _ _ _ | ETypeAlias _ _ _ | ETypeMapping _ _ _ => True | _ => False end.

(** [assigned lhs t]: [t] is assigned when [lhs] stands at the left of [=] *)
Inductive assigned : expr -> expr -> Prop :=
| assigned_self t : (forall q l, t <> EList q l) -> assigned t t
| assigned_in q l x t : In x l -> assigned x t -> assigned (EList q l) t.

(** A default, in the values of a case option or as the key of a selector entry *)
Definition default_count (l : list expr) : nat :=
  List.length (filter (fun x => match x with EDefault _ => true | _ => false end) l).
Definition option_values (o : expr) : list expr := match o with ECaseOption _ vs _ => vs | _ => [] end.
Definition entry_key (o : expr) : list expr := match o with ESelEntry _ m _ => [m] | _ => [] end.

Definition captures_rest (q : expr) : Prop := exists p n v t, q = EParam p n v t true.
Definition unfold_count (l : list expr) : nat :=
  List.length (filter (fun x => match x with EAttrsOp _ _ => true | _ => false end) l).

(** Something that has no value, even behind unary operators *)
Inductive valueless : expr -> Prop :=
| valueless_collector q t f l : valueless (ECollect q t f l)
| valueless_class_like q k n ps b : valueless (EDef q k n ps b)
| valueless_function q k n ps b r : valueless (EFunc q k n ps b r)
| valueless_node q p h b : valueless (ENode q p h b)
| valueless_site q b : valueless (ESite q b)
| valueless_alias q n t : valueless (ETypeAlias q n t)
| valueless_type q n pn b : valueless (ETypeDef q n pn b)
| valueless_mapping q t m : valueless (ETypeMapping q t m)
| valueless_capability q x y z m : valueless (ECapMap q x y z m)
| valueless_step q n st p d : valueless (EStep q n st p d)
| valueless_unary q k x : valueless x -> valueless (EUn q k x).

(** The parts of a node whose value is needed *)
Definition needs_value (d x : expr) : Prop :=
  match d with
  | EIf _ _ t _ _ => x = t
  | ECase _ t _ => x = t
  | ECaseOption _ vs _ => In x vs
  | EKeyed _ a b => x = a \/ x = b
  | EList _ xs => In x xs
  | ESelector _ t _ => x = t
  | ESelEntry _ m _ => x = m
  | EUn _ _ y => x = y
  | EBin _ (KAnd | KOr | KArithmetic | KComparison | KMatch | KIn) _ a b => x = a \/ x = b
  | EAttrsOp _ y => x = y
  | _ => False
  end.

(** [inside x y]: [y] is [x] or below it, with no lambda on the way *)
Inductive inside : expr -> expr -> Prop :=
| inside_self x : inside x x
| inside_part x y z : (forall q ps b r, x <> ELambda q ps b r) -> In y (parts x) -> inside y z -> inside x z.

(** A query: comparisons for (in)equality, joined by and, or, parentheses *)
Inductive query : expr -> Prop :=
| query_equal q l r : query (EBin q KComparison (lit "==") l r)
| query_unequal q l r : query (EBin q KComparison (lit "!=") l r)
| query_paren q x : query x -> query (EUn q KParen x)
| query_and q op l r : query l -> query r -> query (EBin q KAnd op l r)
| query_or q op l r : query l -> query r -> query (EBin q KOr op l r)
| query_variable q x : query (EUn q KVariable x)
| query_name q n : query (EQName q n)
| query_int q a z : query (EInt q a z)
| query_float q f : query (EFloat q f)
| query_string q s : query (EString q s)
| query_bool q b : query (EBool q b).

(** letters, digits and underscores *)
Definition word_char (x : Z) : Prop :=
  ("a"%ch <= x <= "z"%ch) \/ ("A"%ch <= x <= "Z"%ch) \/ ("0"%ch <= x <= "9"%ch) \/ x = "_"%ch.
(** [name_path first n]: segments separated by ::, each with its first
    character in [first] and word characters behind it *)
Inductive name_path (first : Z * Z) : str -> Prop :=
| one_segment c r : fst first <= c <= snd first -> Forall word_char r -> name_path first (c :: r)
| more_segments c r n : fst first <= c <= snd first -> Forall word_char r -> name_path first n ->
                        name_path first (c :: r ++ lit "::" ++ n).
Definition lower_case : Z * Z := ("a"%ch, "z"%ch).
Definition upper_case : Z * Z := ("A"%ch, "Z"%ch).
