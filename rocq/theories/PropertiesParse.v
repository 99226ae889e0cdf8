(** * PropertiesParse: the trees Parse returns (C18, C19, C20, C21, C24, C27)

    Stated with SpecShape.v, SpecVisit.v, SpecValidate.v and SpecParse.v.  Each
    theorem is about any parser state ([parser_state]), any source and both
    modes of Parse ([single] is the singleExpression argument). *)
From Verif Require Import Base Float Tokens Ast Pn ToPN Ctx Locator Lexer Parser Literal Visit Validator Api Conform.
From Verif Require Import SpecVisit SpecValidate ValidateProof SpecToPN ToPNProof SpecShape SpecParse ParseProof PropertiesTree.

(** ** C18 *)
Theorem C18_parsed_trees_follow_the_grammar : forall o c fuel source single e c',
  parser_state o c -> parse_run fuel c source single = Ok e c' ->
  forall anc d, node_at e anc d -> grammar d.
Proof. intros o c fuel source single e c' HP HR anc d Hn. exact (proj1 (parsed_node HP HR Hn)). Qed.
(** and the root is a program with a block or an EPP template, or (with
    singleExpression) one of these or an expression *)
Theorem C18_parsed_roots : forall o c fuel source e c',
  parser_state o c -> parse_run fuel c source false = Ok e c' ->
  exists body defs, e = EProgram (mkpos 0 (c_pos c')) body defs /\ is_root body = true.
Proof.
  intros o c fuel source e c' HP HR. destruct (parsed_root HP HR) as (b & E & H). eauto.
Qed.
Theorem C18_parsed_single_roots : forall o c fuel source e c',
  parser_state o c -> parse_run fuel c source true = Ok e c' -> is_root e || is_expression e = true.
Proof. intros o c fuel source e c' HP HR. exact (parsed_root HP HR). Qed.
Definition kinds_source : string := "define d($a, String $b = 'x') { file { '/x': ensure => $a ? { 1 => 2, default => [3, a => 4] } } case $b { 1: { } } } Foo <| a == 1 |> { b => 2 } $x.map |$y| { $y }"%string.
Example C18_case : exists e c', parse_run conf_fuel (createParser puppet) (lit kinds_source) false = Ok e c' /\ nodes e = 51%nat.
Proof. eexists _, _. split; vm_compute; reflexivity. Qed.
Print Assumptions C18_parsed_trees_follow_the_grammar.
Print Assumptions C18_parsed_roots.
Print Assumptions C18_parsed_single_roots.

(** ** C19 *)
Theorem C19_validated_trees_have_PN : forall o c fuel source single e c' k text s l,
  parser_state o c -> parse_run fuel c source single = Ok e c' ->
  validate k text s e = inl l ->
  (forall i, In i l -> i_code i <> IllegalParameterName /\ i_code i <> IllegalNumericParameter) ->
  exists q, toPN e = Some q.
Proof.
  intros o c fuel source single e c' k text s l HP HR HV HI. eapply toPN_validated; eauto.
  intros anc d Hn. exact (parsed_param_shape HP HR Hn).
Qed.
Theorem C19_legal_names_have_PN : forall o c fuel source single e c',
  parser_state o c -> parse_run fuel c source single = Ok e c' ->
  (forall anc p n v t r, node_at e anc (EParam p n v t r) -> pn_key n) ->
  exists q, toPN e = Some q.
Proof.
  intros o c fuel source single e c' HP HR HN. apply toPN_named; [|exact HN].
  intros anc d Hd. exact (parsed_param_shape HP HR Hd).
Qed.
Example C19_case : exists q, toPN (tree puppet kinds_source) = Some q.
Proof. eexists. vm_compute. reflexivity. Qed.
Example C19_validated : codes_of Basic puppet StrictError kinds_source = Some [(IdemNotAllowedLast, SevError)].
Proof. vm_compute. reflexivity. Qed.
Print Assumptions C19_validated_trees_have_PN.
Print Assumptions C19_legal_names_have_PN.

(** ** C20 *)
(** Every definition in the tree is in the list.  [set_pos q d] is [d] with
    another position for its own node only (a sign before a number, -1, gives
    the node after it a new position). *)
Theorem C20_definitions_are_listed : forall o c fuel source p body defs c' anc d,
  parser_state o c -> parse_run fuel c source false = Ok (EProgram p body defs) c' ->
  node_at body anc d -> is_definition d = true -> exists q, In (set_pos q d) defs.
Proof.
  intros o c fuel source p body defs c' anc d HP HR Hn Hd.
  destruct (parsed_root HP HR) as (b & E & _). inversion E; subst.
  assert (node_at (EProgram (mkpos 0 (c_pos c')) b (c_defs c')) (anc ++ [EProgram (mkpos 0 (c_pos c')) b (c_defs c')]) d) as Hn'.
  { destruct Hn as [[-> ->]|(a & Hb)]; right.
    - exists [O]. now constructor.
    - exists (O :: a). apply below_deep with b; [reflexivity|exact Hb]. }
  destruct (parsed_node HP HR Hn') as (_ & _ & H). exact (H Hd).
Qed.
Example C20_case : exists p body d1 d2 d3 c', parse_run conf_fuel (createParser puppet) (lit "class a { class b {} } if true { define c { } }") false
  = Ok (EProgram p body [d1; d2; d3]) c'.
Proof. do 6 eexists. vm_compute. reflexivity. Qed.
Print Assumptions C20_definitions_are_listed.

(** ** C21 *)
(** The list holds nothing but definitions and workflow steps, which are
    themselves well formed.  Missing from the full property, which is false
    ([C21_refuted]): that each of them is in the tree, as often as it is listed. *)
Theorem C21_only_definitions_are_listed_partial : forall o c fuel source p body defs c' d,
  parser_state o c -> parse_run fuel c source false = Ok (EProgram p body defs) c' ->
  In d defs -> is_listed d = true /\ (forall anc x, node_at d anc x -> grammar x /\ allowed o x).
Proof.
  intros o c fuel source p body defs c' d HP HR Hd. destruct (parsed_root HP HR) as (b & E & _). inversion E; subst.
  destruct (parsed_listing HP HR Hd) as (H1 & H2). split; [exact H1|]. intros anc x Hx. destruct (H2 anc x Hx) as (? & ? & _). auto.
Qed.
(** a class that occurs once and is listed twice *)
Theorem C21_refuted : exists p body d1 d2 c',
  parse_run conf_fuel (createParser puppet) (lit "notice { class foo {} => 1 }") false = Ok (EProgram p body [d1; d2]) c'
  /\ is_definition d1 = true /\ is_definition d2 = true
  /\ List.length (filter (fun v => is_definition (snd v)) (allContents [] body)) = 1%nat.
Proof. do 5 eexists. split; [vm_compute; reflexivity|]. vm_compute. auto. Qed.
Print Assumptions C21_only_definitions_are_listed_partial.

(** ** C24 *)
(** Names of classes and steps: the scope given by the ancestors, joined with
    a name of their own; outside string interpolations. *)
Theorem C24_names_are_qualified : forall o c fuel source single e c' anc d x,
  parser_state o c -> c_names c = [] -> parse_run fuel c source single = Ok e c' ->
  node_at e anc d -> outside_strings anc -> named_node d = Some x ->
  exists n, x = qualify (scope_of anc) n.
Proof. intros o c fuel source single e c' anc d x HP Hn HR. now apply (parsed_name HP HR). Qed.
Theorem C24_names_are_restored : forall o c fuel source single e c',
  parser_state o c -> parse_run fuel c source single = Ok e c' -> c_names c' = c_names c.
Proof. intros o c fuel source single e c' HP HR. exact (parsed_names HP HR). Qed.
Definition class_names (o : opts) (s : string) : list str :=
  List.concat (map (fun v => match named_node (snd v) with Some n => [n] | None => [] end) (allContents [] (tree o s))).
Example C24_case : class_names puppet "class a::b { if true { class c { class d {} } } } class e {}"
  = [lit "a::b"; lit "a::b::c"; lit "a::b::c::d"; lit "e"].
Proof. vm_compute. reflexivity. Qed.
(** The scope is wrong in a string that follows a class: the string is lexed
    while the parser is still inside the class. *)
Theorem C24_refuted_in_strings : 
  class_names puppet (append "class a {} " (String (Ascii.ascii_of_nat 34) (append "${class b {}}" (String (Ascii.ascii_of_nat 34) ""))))
  = [lit "a"; lit "a::b"].
Proof. vm_compute. reflexivity. Qed.
(** After a failed Parse the names are not restored *)
Theorem C24_refuted_after_failure : exists e c', parse_run conf_fuel (createParser puppet) (lit "class a { 1 2") false = Err e c' /\ c_names c' <> [].
Proof. eexists _, _. split; [vm_compute; reflexivity|discriminate]. Qed.
Print Assumptions C24_names_are_qualified.
Print Assumptions C24_names_are_restored.

(** ** C27 *)
Theorem C27_options_gate_nodes : forall o c fuel source single e c' anc d,
  parser_state o c -> parse_run fuel c source single = Ok e c' -> node_at e anc d -> allowed o d.
Proof. intros o c fuel source single e c' anc d HP HR Hn. exact (proj1 (proj2 (parsed_node HP HR Hn))). Qed.
Example C27_case : tree puppet "plan foo { }" = EQName (mkpos 0 0) (lit "failed")
  /\ tree tasks "plan foo { }" <> EQName (mkpos 0 0) (lit "failed").
Proof. split; vm_compute; congruence. Qed.
Print Assumptions C27_options_gate_nodes.

(** ** C26 *)
(** The full property is: a parsed tree has no comma separated list (but those
    that became arguments).  It is false: the search for such lists is skipped
    when the last statement is a call without parentheses. *)
Theorem C26_refuted : exists p q body c',
  parse_run conf_fuel (createParser puppet) (lit "1, 2 notice 3") false = Ok (EProgram p (EBlock q body) []) c' /\
  map is_comma_list body = [true; false].
Proof. eexists _, _, _, _. split; vm_compute; reflexivity. Qed.
(** Proved: that is the only case.  A comma separated list is nowhere in the
    tree, except among the statements of a block that ends with such a call. *)
Theorem C26_comma_lists_partial : forall o c fuel source single e c' anc p l,
  parser_state o c -> parse_run fuel c source single = Ok e c' ->
  node_at e anc (ECommaList p l) ->
  exists q before call anc', anc = EBlock q (before ++ [call]) :: anc' /\ In (ECommaList p l) before /\ is_statement_call call = true.
Proof.
  intros o c fuel source single e c' anc p l HP HR HN.
  assert (NR: e <> ECommaList p l).
  { intros ->. destruct single; pose proof (parsed_root HP HR) as K; [discriminate K|]. destruct K as (b & K & _). discriminate K. }
  pose proof HN as [[-> E]|(a & HB)]; [congruence|]. apply below_parent in HB as (q & anc' & -> & HI & HQ).
  pose proof (proj1 (parsed_node HP HR HQ)) as HG. pose proof (comma_parent HG HI eq_refl) as HBk. destruct q; try discriminate HBk.
  cbn [grammar parts] in HG, HI. destruct HG as [_ HC].
  destruct HC as (bf & call & -> & Hc). { apply existsb_exists. exists (ECommaList p l). auto. }
  apply in_app_or in HI as [HI|[->|[]]]; [|discriminate Hc]. eauto 8.
Qed.
Example C26_case : exists e c', parse_run conf_fuel (createParser puppet) (lit "if true { 1, 2 notice 3 }") false = Ok e c'.
Proof. eexists _, _. vm_compute. reflexivity. Qed.
Example C26_reported : exists c', parse_run conf_fuel (createParser puppet) (lit "1, 2 3") false = Err (IssueAt PARSE_EXTRANEOUS_COMMA 1 2) c'.
Proof. eexists. vm_compute. reflexivity. Qed.
Print Assumptions C26_comma_lists_partial.
