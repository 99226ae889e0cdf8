(** * SpecEpp: EPP templates, and what they mean *)
From Verif Require Import Base Float Tokens Ast Ctx Lexer Parser Api SpecText SpecLex SpecGrammar SpecSplice SpecManifest SpecOps.

(** the options for templates *)
Definition templates (o : opts) : Prop := o_epp o = true /\ o_factory o = true.
(** The code of a template is one expression after the other.  Text between
    tags is one, so is [<%=] with an expression. *)
Inductive code (o : opts) : list tk -> list expr -> Prop :=
| code_none : code o [] []
| code_more ts e rest es : D (o_workflow o) [] Expression ts [e] -> code o rest es -> apart 12 rest -> code o (ts ++ rest) (e :: es).
(** The text at the beginning, after blanks, does not begin with a newline or
    with what would begin a comment.  (To find out whether a parenthesis is the first
    thing on its line the parser reads the text as if it were code.) *)
Definition tame (src : list Z) : Prop :=
  exists b, blanks b /\ (src = b \/ exists r src', src = b ++ r :: src' /\ ~ In r [32; 9; 13; 10; "#"%ch; "/"%ch]).
(** [opening x s]: [x] is empty or it opens a tag, if [s] comes after it *)
Definition opening (x s : str) : Prop :=
  x = [] \/ x = lit "<%-" \/ x = lit "<%" /\ ~ one_of (first_byte s) "%#=-".
(** the text before the first tag, and the code *)
Definition contents (out : list Z) (es : list expr) : list expr :=
  match out, es with
  | [], _ :: _ => es
  | _, _ => ERenderString z (encode out) :: es
  end.
(** [template o source ps r]: [source] is a template with the parameters [ps];
    [r] are the trees of its texts and of its code.  (A text after tags that say
    nothing, at the beginning, is left out: the parser takes it for the text
    before the first tag.) *)
Inductive template (o : opts) : str -> list expr -> list expr -> Prop :=
| template_code n src out tag ts k es r : tame src -> said src (tag ++ render (ts ++ [k])) out -> tag_or_end (tag ++ render (ts ++ [k])) ->
    opening tag (render (ts ++ [k])) -> stream o (top o n) (Some TRenderString) (Some TRenderString) (ts ++ [k]) -> k_tok k = TEnd ->
    (forall k' l, ts = k' :: l -> k_tok k' = TRenderString -> out <> []) ->
    code o ts es -> statements (contents out es) r -> template o (encode src ++ tag ++ render (ts ++ [k])) [] r
| template_parameters n src tag k1 ts1 ps k2 ts2 k es r :
    let ks := k1 :: ts1 ++ k2 :: ts2 ++ [k] in
    tame src -> said src (tag ++ render ks) [] -> tag_or_end (tag ++ render ks) ->
    opening tag (render ks) -> stream o (top o n) (Some TRenderString) (Some TRenderString) ks -> k_tok k = TEnd ->
    k_tok k1 = TPipe -> D (o_workflow o) [] (ListOf Param) ts1 ps -> k_tok k2 = TPipeEnd ->
    D (o_workflow o) [] Stmts ts2 es -> statements es r -> (forall k' l, ts2 = k' :: l -> k_tok k' <> TLc) -> template o (encode src ++ tag ++ render ks) ps r.
(** the tree of a template: a lambda that renders *)
Definition template_tree (ps r : list expr) : expr := ELambda z ps (EEpp z true (EBlock z r)) None.
Definition rendering (single : bool) (ps r : list expr) : expr :=
  if single then template_tree ps r else EProgram z (template_tree ps r) (defs (template_tree ps r)).
(** ** Templates of texts and operator expressions *)
(** [<%= expression %>] and the text after it: [src] is how the text is written, [out] what it says *)
Record part := mkpart { p_expr : SpecOps.optree; p_src : list Z; p_out : list Z }.
Definition part_text (p : part) : str := lit "<%= " ++ SpecOps.written (p_expr p) ++ lit " %>" ++ encode (p_src p).
Definition text_tree (out : list Z) : list expr := match out with [] => [] | _ => [ERenderString z (encode out)] end.
Definition part_tree (p : part) : list expr := EUn z KRender (SpecOps.tree_of (p_expr p)) :: text_tree (p_out p).
(** the expression and the text are what they are to be *)
Definition proper (p : part) : Prop := SpecOps.legal (p_expr p) /\ epp_text (p_src p) (p_out p).
(** parameters without types and values *)
Definition parameters_text (names : list str) : str := join (lit ",") (map (fun w => lit " $" ++ w) names).
Definition parameter (w : str) : expr := EParam z w None None false.
