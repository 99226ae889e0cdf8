(** * PropertiesRules: C58, stated with SpecRules.v *)
From Verif Require Import Base Float Tokens Ast Ctx Lexer Parser Validator Api Conform SpecVisit SpecValidate SpecOptions SpecRules VisitProof ValidateProof RulesProof PropertiesTree.
From Coq Require Import Lia.

(** ** C58: a manifest that validates without errors obeys the rules *)
(** Classes, defined types and nodes are at the top; functions, type aliases
    and type mappings at the very top. *)
Theorem C58_definitions_at_the_top : forall k text s e anc d,
  passes k text s e -> node_at e anc d -> top_definition d -> at_top anc.
Proof. exact top_places. Qed.
Theorem C58_definitions_at_the_very_top : forall k text s e anc d,
  passes k text s e -> node_at e anc d -> very_top_definition d -> at_very_top anc.
Proof. exact very_top_places. Qed.
(** and have names of segments that begin with a lower case letter (a type alias: upper case) *)
Theorem C58_class_names : forall k text s e anc q dk n ps b,
  passes k text s e -> node_at e anc (EDef q dk n ps b) -> dk <> DApplication -> name_path lower_case n.
Proof. intros k text s e anc q dk n ps b H Hn Hd. eapply definition_names; [exact H|exact Hn|]. destruct dk; [congruence|reflexivity|reflexivity]. Qed.
Theorem C58_function_names : forall k text s e anc q n ps b r,
  passes k text s e -> node_at e anc (EFunc q false n ps b r) -> name_path lower_case n.
Proof. intros k text s e anc q n ps b r H Hn. eapply definition_names; [exact H|exact Hn|reflexivity]. Qed.
Theorem C58_alias_names : forall k text s e anc q n t,
  passes k text s e -> node_at e anc (ETypeAlias q n t) -> name_path upper_case n.
Proof. intros k text s e anc q n t H Hn. eapply definition_names; [exact H|exact Hn|reflexivity]. Qed.

(** There are no [+=] and [-=]; nothing is assigned to an element, to a numeric
    variable or to one of another scope. *)
Theorem C58_assignments : forall k text s e anc q op l r t,
  passes k text s e -> node_at e anc (EBin q KAssignment op l r) ->
  op = lit "=" /\ (assigned l t -> (forall p x ks, t <> EAccess p x ks)
    /\ (forall p x, t = EUn p KVariable x -> exists p' n, x = EQName p' n /\ ~ contains (lit "::") n)).
Proof. exact assignments. Qed.
(** The default of a parameter assigns nothing, except in a lambda. *)
Theorem C58_parameter_defaults : forall k text s e anc q n v t r x,
  passes k text s e -> node_at e anc (EParam q n (Some v) t r) -> inside v x -> forall p op a b, x <> EBin p KAssignment op a b.
Proof. exact defaults_do_not_assign. Qed.

(** A case and a selector have at most one default. *)
Theorem C58_one_default_in_case : forall k text s e anc q t os,
  passes k text s e -> node_at e anc (ECase q t os) -> (default_count (flat_map option_values os) <= 1)%nat.
Proof. exact case_one_default. Qed.
Theorem C58_one_default_in_selector : forall k text s e anc q t os,
  passes k text s e -> node_at e anc (ESelector q t os) -> (default_count (flat_map entry_key os) <= 1)%nat.
Proof. exact selector_one_default. Qed.

(** Only the last parameter of a function or lambda captures the rest, none of
    a class or defined type does, nor is one of these called name or title. *)
Theorem C58_captures_rest_last : forall k text s e anc d ps i q,
  passes k text s e -> node_at e anc d ->
  (exists p n b r, d = EFunc p false n ps b r) \/ (exists p b r, d = ELambda p ps b r) ->
  nth_error ps i = Some q -> captures_rest q -> S i = List.length ps.
Proof. exact captures_last. Qed.
Theorem C58_class_parameters : forall k text s e anc q dk n ps b x,
  passes k text s e -> node_at e anc (EDef q dk n ps b) -> dk <> DApplication -> In x ps ->
  ~ captures_rest x /\ forall p m v t r, x = EParam p m v t r -> m <> lit "name" /\ m <> lit "title".
Proof. exact class_parameters. Qed.

(** Conditions, operands, elements, keys and values have values. *)
Theorem C58_values : forall k text s e anc d x,
  passes k text s e -> node_at e anc d -> needs_value d x -> ~ valueless x.
Proof. exact values_have_values. Qed.
Theorem C58_queries : forall k text s e anc q exported x,
  passes k text s e -> node_at e anc (EQuery q exported x) -> query x.
Proof. exact queries. Qed.

(** Resources: one [* =>] in a body; defaults, overrides and classes are
    neither virtual nor exported; [+>] is for overrides and collectors. *)
Theorem C58_one_unfolding : forall k text s e anc q t os,
  passes k text s e -> node_at e anc (EResBody q t os) -> (unfold_count os <= 1)%nat.
Proof. exact one_unfolding. Qed.
Theorem C58_not_virtual : forall k text s e anc d f,
  passes k text s e -> node_at e anc d ->
  (exists q t os, d = EResDefaults q f t os) \/ (exists q r os, d = EResOverride q f r os)
  \/ (exists q q' bs, d = EResource q f (EQName q' (lit "class")) bs) -> f = Regular.
Proof. exact not_virtual. Qed.
Theorem C58_appends : forall k text s e anc q n v,
  passes k text s e -> node_at e anc (EAttrOp q (lit "+>") n v) ->
  exists c up, anc = c :: up /\ ((exists p t x os, c = ECollect p t x os) \/ exists p f r os, c = EResOverride p f r os).
Proof. exact appends. Qed.
(** Quoted host names have letters, digits, underscores, hyphens and dots;
    reserved words are not used. *)
Theorem C58_hostnames : forall k text s e anc q p hs b q' h,
  passes k text s e -> node_at e anc (ENode q p hs b) -> In (EString q' h) hs ->
  Forall (fun c => word_char c \/ c = "-"%ch \/ c = "."%ch) h.
Proof. exact hostnames. Qed.
Theorem C58_no_reserved_words : forall k text s e anc q w,
  passes k text s e -> ~ node_at e anc (EReserved q w false).
Proof. exact no_reserved_word. Qed.

(** A source with each of these constructs passes ... *)
Definition sample : string := "class a::b($x, $y = [1].map |$z| { $q = $z }) { notice($x) } define d($a) { file { 'f': * => $a } } node 'h-1.x', default { File['a'] { b +> 3 } } function f($a, *$b) { case $a { 1, 2: { f(1) } default: { } } $c = $a ? { 1 => 2, default => 3 } } type T = Integer File <| title == 'x' and (a != 3) |> { m +> 1 } if $a { [$b, $c] = { 1 => [2] } }".
Example C58_case : codes_of Basic puppet StrictError sample = Some [] /\ passes Basic (lit sample) StrictError (tree puppet sample).
Proof.
  split; [vm_compute; reflexivity|]. exists []. split; [vm_compute; reflexivity|]. intros i [].
Qed.
Definition kind_of (d : expr) : Z :=
  match d with
  | EDef _ _ _ _ _ => 1 | ENode _ _ _ _ => 2 | EFunc _ _ _ _ _ _ => 3 | ETypeAlias _ _ _ => 4 | EBin _ KAssignment _ _ _ => 5
  | EParam _ _ (Some _) _ _ => 6 | ECase _ _ _ => 7 | ESelector _ _ _ => 8 | ELambda _ _ _ _ => 9 | EIf _ _ _ _ _ => 10
  | EQuery _ _ _ => 11 | EResBody _ _ _ => 12 | EResOverride _ _ _ _ => 13 | EAttrOp _ _ _ _ => 14 | EResource _ _ _ _ => 15 | _ => 0
  end.
Example C58_case_has_all : forallb (fun n => existsb (fun v => kind_of (snd v) =? Z.of_nat n) (Visit.allContents [] (tree puppet sample))) (seq 1 15) = true.
Proof. vm_compute. reflexivity. Qed.
(** ... and each of these does not. *)
Example C58_violations : forall w, In w
  ["if true { class c { } }"; "if true { function f() { } }"; "class c { function f() { } }"; "class c { type T = A }";
   "$a += 1"; "$a[1] = 2"; "[$x, [$a::b]] = 1"; "$1 = 2"; "define d($a = ($b = 1)) { }"; "function Aa() { }";
   "case 1 { default: { } 2, default: { } }"; "1 ? { default => 1, default => 2 }"; "function f(*$a, $b) { }"; "class c(*$a) { }"; "class c($title) { }";
   "if -(class x { }) { }"; "File <| a > 3 |>"; "file { 'a': * => $b, * => $c }"; "@File { a => 1 }"; "@class { 'a': }"; "file { 'a': b +> 1 }"; "node 'a b' { }"]%string ->
  existsb (fun c => match snd c with SevError => true | _ => false end) (match codes_of Basic puppet StrictError w with Some l => l | None => [] end) = true.
Proof. apply (proj1 (Forall_forall _ _)). repeat (constructor; [vm_compute; reflexivity|]). constructor. Qed.
Print Assumptions C58_definitions_at_the_top.
Print Assumptions C58_definitions_at_the_very_top.
Print Assumptions C58_class_names.
Print Assumptions C58_function_names.
Print Assumptions C58_alias_names.
Print Assumptions C58_assignments.
Print Assumptions C58_parameter_defaults.
Print Assumptions C58_one_default_in_case.
Print Assumptions C58_one_default_in_selector.
Print Assumptions C58_captures_rest_last.
Print Assumptions C58_class_parameters.
Print Assumptions C58_values.
Print Assumptions C58_queries.
Print Assumptions C58_one_unfolding.
Print Assumptions C58_not_virtual.
Print Assumptions C58_appends.
Print Assumptions C58_hostnames.
Print Assumptions C58_no_reserved_words.
