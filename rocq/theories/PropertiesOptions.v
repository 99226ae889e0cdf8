(** * PropertiesOptions: C56 *)
From Verif Require Import Base Utf8Facts Float Tokens Ast Pn ToPN Ctx Locator Lexer Parser Literal Visit Validator Api SpecOptions OptSim.

(** ** C56: an option changes only the sources that use what it is about *)
(** the whole of a Parse call: the outcome, whatever it is *)
Theorem C56_idle_options : forall fuel o o' source single, idle o o' source -> parse fuel o source single = parse fuel o' source single.
Proof.
  intros fuel o o' source single HI. unfold parse, parse_run.
  assert (Hg : good source o o' (start_ctx source (createParser o))) by (repeat split).
  destruct (@parse_top_in _ _ _ HI fuel single _ Hg Logic.I) as [E _].
  assert (E0 : retag o' (start_ctx source (createParser o)) = start_ctx source (createParser o')) by reflexivity.
  rewrite E0 in E. rewrite E. destruct (parseTop (run fuel) single (start_ctx source (createParser o))) as [e d|e d|]; cbn [re]; try reflexivity.
Qed.
(** the command line: [-t] without a plan and [-w] without a step change
    neither what is printed nor the exit status *)
Theorem C56_command_line : forall fuel validateOnly strict tasks tasks' workflow workflow' epp isL source,
  (tasks = tasks' \/ ~ contains (lit "plan") source) ->
  (workflow = workflow' \/ ~ contains (lit "action") source /\ ~ contains (lit "resource") source
                           /\ ~ contains (lit "stateHandler") source /\ ~ contains (lit "workflow") source) ->
  cli fuel (mkcli validateOnly strict tasks workflow epp) isL source = cli fuel (mkcli validateOnly strict tasks' workflow' epp) isL source.
Proof.
  intros fuel v s t t' w w' e isL source Ht Hw. unfold cli. cbn [cli_strict cli_validateOnly].
  replace (parse fuel (cli_parseopts (mkcli v s t' w' e) isL) source false) with (parse fuel (cli_parseopts (mkcli v s t w e) isL) source false); [reflexivity|].
  apply C56_idle_options. unfold idle, cli_parseopts. cbn. auto 10.
Qed.
(** ... and parsing with validation *)
Theorem C56_validated : forall fuel o o' source single k s, idle o o' source ->
  parserValidator k s (parse fuel o source single) source = parserValidator k s (parse fuel o' source single) source.
Proof. intros fuel o o' source single k s H. now rewrite (@C56_idle_options fuel o o' source single H). Qed.

(** to look for bytes *)
Fixpoint begins_with (w t : str) : bool :=
  match w, t with [], _ => true | a :: w', b :: t' => (a =? b) && begins_with w' t' | _, [] => false end.
Fixpoint search (w t : str) : bool := begins_with w t || match t with [] => false | _ :: t' => search w t' end.
Lemma begins_app w t : begins_with w (w ++ t) = true.
Proof. induction w as [|a w IH]; [reflexivity|]. cbn. now rewrite Z.eqb_refl, IH. Qed.
Lemma search_complete w t : contains w t -> search w t = true.
Proof.
  intros (a & b & ->). induction a as [|x a IH]; cbn [app].
  - destruct (w ++ b) eqn:E; cbn [search]; rewrite <- E, begins_app; reflexivity.
  - cbn [search]. rewrite IH. now rewrite Bool.orb_true_r.
Qed.
Definition bare (_ : Z) : bool := false.
Definition off : opts := mkopts false false false false false true bare.
Definition on : opts := mkopts false true true true true true bare.
Definition manifest : str := lit "class a($x = 3) { notify { ""m${x}\t"": } } include a".
(** a manifest that is parsed, and for which all four options are idle *)
Example C56_case : idle off on manifest /\ (exists e, parse (100 * 100) off manifest false = POk e).
Proof.
  split.
  - unfold idle. repeat split; right; repeat split; intros H; apply search_complete in H; vm_compute in H; discriminate.
  - vm_compute. eexists. reflexivity.
Qed.
(** each of the conditions is needed: with the bytes in the source the option matters *)
Definition tells (o' : opts) (source : str) : bool :=
  match parse (100 * 100) off source false, parse (100 * 100) o' source false with
  | POk e, POk e' => match toPN e, toPN e' with Some p, Some p' => negb (str_eqb (format p) (format p')) | _, _ => true end
  | POk _, _ | _, POk _ => true
  | _, _ => false
  end.
Example C56_needed :
  tells (mkopts false true false false false true bare) (lit "`a`") = true
  /\ tells (mkopts false false true false false true bare) (lit """\x41""") = true
  /\ tells (mkopts false false false true false true bare) (lit "plan a() {}") = true
  /\ tells (mkopts false false false false true true bare) (lit "workflow a {}") = true
  /\ tells (mkopts false false false false true true bare) (lit "action a {} {}") = true
  /\ tells (mkopts false false false false true true bare) (lit "resource a {}") = true
  /\ tells (mkopts false false false false true true bare) (lit "stateHandler a {} {}") = true.
Proof. repeat split; vm_compute; reflexivity. Qed.
Print Assumptions C56_idle_options.
Print Assumptions C56_command_line.
Print Assumptions C56_validated.
