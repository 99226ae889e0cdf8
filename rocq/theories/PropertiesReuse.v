(** * PropertiesReuse: C17, what one call of Parse leaves for the next *)
From Verif Require Import Base Float Tokens Ast Ctx Lexer Parser Api SpecParse SpecReuse ReuseProof Conform ConformParser.

(** ** C17 *)
(** The full property is: in every state of a parser, Parse gives what a new
    parser gives.  It is false, see below.  Of the earlier calls a parser keeps
    the pending names, the last token and the start of the last line; nothing
    else has an influence on any later call. *)
Theorem C17_only_names_token_and_line_matter_partial : forall o c c' fuel l,
  parser_state o c -> parser_state o c' ->
  c_names c = c_names c' -> c_tok c = c_tok c' -> c_bol c = c_bol c' ->
  calls fuel c l = calls fuel c' l.
Proof.
  intros o c c' fuel l HP HP' H1 H2 H3. apply calls_same_history. unfold carried. rewrite H1, H2, H3.
  now rewrite (proj1 (ParseProof.parser_state_gate HP)), (proj1 (ParseProof.parser_state_gate HP')).
Qed.
(** A parser that has parsed any number of sources of one line, with success,
    is as good as new. *)
Theorem C17_like_new_after_one_line_sources_partial : forall o c fuel source single,
  one_line_history o c -> to_presult (parse_run fuel c source single) = parse fuel o source single.
Proof. intros. now apply like_new. Qed.
(** the hypotheses are met by parsers with a past *)
Definition puppet : opts := mkopts false false false false false true (fun _ => false).
Example C17_case : exists e c e2 c2,
  parse_run conf_fuel (createParser puppet) (lit "class a { class b {} }") false = Ok e c
  /\ parse_run conf_fuel c (lit "$x = [1, 2]") true = Ok e2 c2
  /\ one_line_history puppet c2 /\ c2 <> createParser puppet
  /\ exists e3, to_presult (parse_run conf_fuel c2 (lit "foo(1)") false) = POk e3.
Proof.
  do 4 eexists.
  match goal with |- ?A /\ ?B /\ _ => assert (H1 : A) by (vm_compute; reflexivity); assert (H2 : B) by (vm_compute; reflexivity) end.
  split; [exact H1|]. split; [exact H2|]. split.
  - eapply olh_parsed; [eapply olh_parsed; [apply olh_new| |exact H1]| |exact H2]; vm_compute; intuition discriminate.
  - split; [discriminate|]. eexists. vm_compute. reflexivity.
Qed.
(** Refutations.  After a failure inside a class, that class encloses the next
    program's classes. *)
Definition class_name (r : res expr) : option str :=
  match r with Ok (EProgram _ (EBlock _ [EDef _ _ n _ _]) _) _ => Some n | _ => None end.
Theorem C17_refuted_after_failure : exists x c,
  parse_run conf_fuel (createParser puppet) (lit "class a { 1 2") false = Err x c
  /\ class_name (parse_run conf_fuel c (lit "class b {}") false) = Some (lit "a::b")
  /\ class_name (parse_run conf_fuel (createParser puppet) (lit "class b {}") false) = Some (lit "b").
Proof. do 2 eexists. split; [vm_compute; reflexivity|]. split; vm_compute; reflexivity. Qed.
(** After a program of several lines, even a successful one, the start of its
    last line decides whether a parenthesis begins the arguments of a call. *)
Theorem C17_refuted_after_success : exists e c x,
  parse_run conf_fuel (createParser puppet) ([10] ++ [10] ++ [10]) false = Ok e c
  /\ to_presult (parse_run conf_fuel c (lit "foo(1)") false) <> parse conf_fuel puppet (lit "foo(1)") false
  /\ parse conf_fuel puppet (lit "foo(1)") false = POk x.
Proof. do 3 eexists. split; [vm_compute; reflexivity|]. split; [|vm_compute; reflexivity]. vm_compute. discriminate. Qed.
(** After a failure the last token decides whether a slash at the beginning of
    the next source divides. *)
Theorem C17_refuted_token : exists x c e,
  parse_run conf_fuel (createParser puppet) (lit "( 1 2") false = Err x c
  /\ to_presult (parse_run conf_fuel c (lit "/a/") false) <> parse conf_fuel puppet (lit "/a/") false
  /\ parse conf_fuel puppet (lit "/a/") false = POk e.
Proof. do 3 eexists. split; [vm_compute; reflexivity|]. split; [|vm_compute; reflexivity]. vm_compute. discriminate. Qed.
Print Assumptions C17_only_names_token_and_line_matter_partial.
Print Assumptions C17_like_new_after_one_line_sources_partial.
Print Assumptions C17_refuted_after_success.
