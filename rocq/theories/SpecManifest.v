(** * SpecManifest: the sources of the grammar, and what they mean *)
From Verif Require Import Base Float Tokens Ast Ctx Lexer Parser Api SpecLex SpecGrammar SpecSplice.

(** where the tokens of a source stand; strings are nested at most [n] deep *)
Definition top (o : opts) (n : nat) : mode := mkmode false (splices o n).
(** [manifest o source out]: [source] is a Puppet manifest, a sequence of
    tokens that is a list of statements; [out] are the trees of the statements *)
Inductive manifest (o : opts) : str -> list expr -> Prop :=
| manifest_of n ts k es out : stream o (top o n) None None (ts ++ [k]) -> k_tok k = TEnd -> D (o_workflow o) [] Stmts ts es -> statements es out ->
    manifest o (render (ts ++ [k])) out.
(** [expression o source e]: [source] is one expression *)
Inductive expression (o : opts) : str -> expr -> Prop :=
| expression_of n ts k e : stream o (top o n) None None (ts ++ [k]) -> k_tok k = TEnd -> D (o_workflow o) [] Rel ts [e] -> expression o (render (ts ++ [k])) e.
(** Parse of [source] with a new parser returns a tree that is, without
    positions, [e] *)
Definition parses (o : opts) (source : str) (single : bool) (e : expr) : Prop :=
  exists e1 n0, (forall n, (n0 <= n)%nat -> parse n o source single = POk e1) /\ strip e1 = e.
(** the tree of a program: its statements, and the definitions in them *)
Definition program (out : list expr) : expr := EProgram z (EBlock z out) (flat_map defs out).
(** the options for manifests: no EPP (with workflow steps or without), and a
    factory (Parse has one) *)
Definition manifests (o : opts) : Prop := o_epp o = false /\ o_factory o = true.
(** [respaced ts ts']: the same tokens, with something else between them.
    Whether something is between a sign and a number matters. *)
Definition respaced_tk (k k' : tk) : Prop :=
  k_tok k = k_tok k' /\ k_val k = k_val k' /\ k_radix k = k_radix k' /\ k_txt k = k_txt k' /\
  (digit (first_byte (k_txt k)) -> (k_gap k = [] <-> k_gap k' = [])).
Definition respaced : list tk -> list tk -> Prop := Forall2 respaced_tk.
(** a source that is one expression: its tree, in either mode of Parse *)
Definition whole (single : bool) (e : expr) : expr := if single then e else program [e].
(** ** Ways to write texts and operator expressions *)
(** a text in single quotes *)
Definition in_single_quotes (rs : list Z) : list Z :=
  flat_map (fun r => if (r =? "'"%ch) || (r =? "\"%ch) then ["\"%ch; r] else [r]) rs.
(** a text in double quotes *)
Definition hex_digits (r : Z) : list Z := map (fun i => r / 16 ^ i mod 16) [5; 4; 3; 2; 1; 0].
Definition hex_of (d : Z) : Z := if d <? 10 then 48 + d else 87 + d.
Definition in_double_quotes (rs : list Z) : list Z :=
  flat_map (fun r =>
    if (r =? """"%ch) || (r =? "\"%ch) || (r =? "$"%ch) then ["\"%ch; r]
    else if r =? 10 then ["\"%ch; "n"%ch] else if r =? 13 then ["\"%ch; "r"%ch] else if r =? 9 then ["\"%ch; "t"%ch]
    else if (r <? 32) || (r =? 65533) then ["\"%ch; "u"%ch; "{"%ch] ++ map hex_of (hex_digits r) ++ ["}"%ch]
    else [r]) rs.
(** the decimal digits of a number *)
Fixpoint digits_of (fuel : nat) (n : Z) : list Z :=
  match fuel with
  | O => []
  | S f => if n <? 10 then [n] else digits_of f (n / 10) ++ [n mod 10]
  end.
Definition decimal_text (n : Z) : str := decimals (digits_of 20 n).
