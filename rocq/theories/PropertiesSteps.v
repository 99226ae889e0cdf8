(** * PropertiesSteps: workflow steps (C52)

    Stated with SpecSteps.v (workflows written out), SpecGrammar.v (the grammar,
    with its rules for steps) and SpecManifest.v.  [manifests o]: no EPP. *)
From Verif Require Import Base Float Tokens Ast Ctx Lexer Parser Api Conform SpecLex SpecGrammar SpecManifest SpecOps SpecSteps.
From Verif Require Import GrammarTop GrammarSpace GrammarUse GrammarOps GrammarCalls StepsProof.
From Coq Require Import Lia ZifyBool.

(** ** C52 *)
(** Every manifest of the grammar, steps included, is parsed to its tree. *)
Theorem C52_steps_are_parsed : forall o source out,
  manifests o -> o_workflow o = true -> manifest o source out -> parses o source false (program out).
Proof. intros o source out HP _ HM. apply manifest_parses; assumption. Qed.
(** In particular, for all workflows - actions, resources and workflows in
    workflows, any number and however deep, with any properties and any state -
    the source is parsed into exactly these steps: names are qualified with the
    names of the workflows around, the variables in the state of a resource are
    deferred, and the definitions of the program are the outermost steps. *)
Theorem C52_workflows : forall o flows after,
  manifests o -> o_workflow o = true -> Forall proper_flow flows -> flows <> [] -> end_gap after ->
  let steps := map (flow_tree []) flows in
  parses o (join (lit " ") (flat_map flow_words flows) ++ after) false (EProgram z (EBlock z steps) steps).
Proof.
  intros o flows g HP HW HF Hne HG steps. destruct flows as [|f fs]; [congruence|].
  pose proof (manifest_parses HP (@flows_parse o f fs g HP HW HF HG)) as X. unfold program in X.
  assert (E : flat_map defs steps = steps). { unfold steps. clear. induction (f :: fs) as [|g l IH]; [reflexivity|]. cbn [map flat_map]. rewrite flow_defs, IH. reflexivity. }
  fold steps in X. rewrite E in X. exact X.
Qed.
(** without the option, the words of steps are plain names *)
Theorem C52_styles_are_names_otherwise : forall o single brk before after w,
  manifests o -> o_workflow o = false -> gap brk before -> end_gap after -> In w ["action"; "resource"; "stateHandler"; "workflow"]%string ->
  parses o (before ++ lit w ++ after) single (whole single (EQName z (lit w))).
Proof.
  intros o single brk g1 g2 w HP HW H1 H2 HI.
  eapply one_token with (t := TIdentifier) (brk := brk) (r := 0); try exact HP; eauto; try discriminate; try exact Logic.I; try reflexivity; try congruence.
  - cbn [In] in HI. repeat (destruct HI as [<-|HI]; [apply tt_name; [apply q_one; [unfold lower; cbn; lia|repeat constructor; unfold wordchar, lower, upper; cbn; lia]|vm_compute; intuition discriminate]|]). destruct HI.
  - apply a_name; reflexivity.
  - split; [intros []|reflexivity].
Qed.
Definition lyra : opts := mkopts false false false false true true (fun _ => false).
Definition case_flows : list flow :=
  [Workflow (lit "w") [(lit "limit", Number 3)]
     [Resource (lit "vpc") [] [(lit "size", Number 10); (lit "region", Var (lit "region"))]; Workflow (lit "inner") [] [Action (lit "a") []]; Action (lit "b") [(lit "when", Var (lit "x"))]];
   Action (lit "last") []].
Example C52_case : manifests lyra /\ o_workflow lyra = true /\ Forall proper_flow case_flows
  /\ join (lit " ") (flat_map flow_words case_flows) =
    lit "workflow w { limit => 3 } { resource vpc { } { size => 10 , region => $region } workflow inner { } { action a { } { } } action b { when => $x } { } } action last { } { }".
Proof.
  split; [split; reflexivity|]. split; [reflexivity|]. split; [|vm_compute; reflexivity].
  assert (Q : forall w, match w with h :: t => lower h /\ Forall wordchar t | [] => False end -> ~ In w (map lit reserved_words) -> SpecSteps.plain_name w)
    by (intros [|h t] H1 H2; [destruct H1|split; [apply q_one; apply H1|exact H2]]).
  repeat match goal with
    | |- SpecSteps.plain_name _ => apply Q; [split; [unfold lower; cbn; lia|repeat constructor; unfold wordchar, lower; cbn; lia]|vm_compute; intuition discriminate]
    | |- GrammarCalls.plain_name _ => apply Q; [split; [unfold lower; cbn; lia|repeat constructor; unfold wordchar, lower; cbn; lia]|vm_compute; intuition discriminate]
    | |- _ <> _ => discriminate
    | |- proper_given (Var _) => apply q_one; [unfold lower; cbn; lia|repeat constructor; unfold wordchar, lower; cbn; lia]
    | |- proper_given _ => cbn; lia
    | |- qualified _ _ => apply q_one; [unfold lower; cbn; lia|repeat constructor; unfold wordchar, lower; cbn; lia]
    | |- ~ In _ _ => vm_compute; intuition discriminate
    | |- _ => constructor
    end.
  all: vm_compute; discriminate.
Qed.
Example C52_case_run : exists e, parse conf_fuel lyra (join (lit " ") (flat_map flow_words case_flows)) false = POk e
  /\ strip e = EProgram z (EBlock z (map (flow_tree []) case_flows)) (map (flow_tree []) case_flows).
Proof. eexists. split; vm_compute; reflexivity. Qed.
(** ** A workflow with parameters, results, a repeated step and a function *)
Definition T (t : tok) (v : tval) (x : string) : tk := mktk (lit " ") false t v 10 (lit x).
Definition W (x : string) : tk := T TIdentifier (VStr (lit x)) x.
Definition V (x : string) : tk := T TVariable (VStr (lit x)) ("$" ++ x).
Definition P (t : tok) (x : string) : tk := T t VNil x.
Definition rich : list tk :=
  [mktk [] false TIdentifier (VStr (lit "workflow")) 10 (lit "workflow"); W "w"; P TLc "{"; W "parameters"; P TFarrow "=>"; P TLp "("; V "p"; P TRp ")"; P TComma ",";
   W "returns"; P TFarrow "=>"; P TLp "("; V "r"; P TAssign "="; W "v"; P TRp ")"; P TRc "}"; P TLc "{";
   W "resource"; W "n"; P TLc "{"; P TRc "}"; V "all"; P TAssign "="; W "each"; P TLp "("; V "p"; P TRp ")"; P TPipe "|"; V "x"; P TPipeEnd "|";
   P TLc "{"; W "k"; P TFarrow "=>"; W "f"; P TLp "("; V "x"; P TRp ")"; P TRc "}"; 
   T TFunction (VStr (lit "function")) "function"; W "g"; P TLc "{"; P TRc "}"; P TRc "}"].
Definition rich_end : tk := mktk [] false TEnd VNil 0 [].
Definition rich_text : str := lit "workflow w { parameters => ( $p ) , returns => ( $r = v ) } { resource n { } $all = each ( $p ) | $x | { k => f ( $x ) } function g { } }".
Definition rich_function : expr := EFunc z false (lit "g") [] (EBlock z []) None.
Definition rich_step : expr :=
  EStep z (lit "w") SWorkflow
    (Some (EHash z [entry "parameters" (EList z [EParam z (lit "p") None None false]); entry "returns" (EList z [EParam z (lit "r") (Some (EString z (lit "v"))) None false])]))
    (Some (EBlock z [
      EStep z (lit "w::n") SResource (Some (EHash z [iteration (lit "all") (lit "each") [EParam z (lit "p") None None false] [EParam z (lit "x") None None false]]))
        (Some (EHash z [entry "k" (later [EString z (lit "f"); EList z [later [EString z (lit "$x")]]])]));
      rich_function])).
Lemma rich_stream : stream lyra (top lyra 0) None None (rich ++ [rich_end]).
Proof.
  unfold rich, rich_end, W, V, P, T. cbn [app stream k_tok k_val k_radix k_txt k_gap k_brk].
  repeat match goal with
  | |- _ /\ _ => split
  | |- SpecLex.written _ _ _ _ _ _ => apply wr_token; [|first [reflexivity|discriminate]]
  | |- token_text _ TEnd _ _ _ => exact (tt_end lyra 0)
  | |- token_text _ TFunction _ _ _ => apply (tt_reserved lyra); vm_compute; tauto
  | |- token_text _ TIdentifier _ _ _ => apply tt_name; [apply q_one; [unfold lower; cbn; lia|repeat constructor; unfold wordchar, lower; cbn; lia]|vm_compute; intuition discriminate]
  | |- token_text _ TVariable (VStr ?w) _ _ => apply (@tt_var lyra w); apply q_one; [unfold lower; cbn; lia|repeat constructor; unfold wordchar, lower; cbn; lia]
  | |- token_text _ _ VNil _ _ => apply (tt_punct lyra); vm_compute; tauto
  | |- if embedded _ then _ else _ => cbn [embedded top]
  | |- gap _ _ \/ _ => left; repeat constructor
  | |- ~ clash _ _ _ => solve [vm_compute; try (intuition (try discriminate; try lia)); match goal with H : exists _, _ |- _ => destruct H; discriminate end]
  | |- situated _ _ _ _ _ _ TLp => split; [reflexivity|discriminate]
  | |- situated _ _ _ _ _ _ TLc => discriminate
  | |- situated _ _ _ _ _ _ TPipe => split; [discriminate|vm_compute; intuition discriminate]
  | |- situated _ _ _ _ _ _ TPipeEnd => right; vm_compute; auto
  | |- situated _ _ _ _ _ _ _ => exact Logic.I
  | |- _ -> _ => discriminate
  end; reflexivity.
Qed.
Lemma one_param wf ns x : D wf ns (ListOf Param) [V x] [EParam z (lit x) None None false].
Proof. apply l_one. apply (@param_plain wf ns [] [] [] (V x) (lit x) [] []); try constructor; reflexivity. Qed.
Lemma rich_derive : D true [] Stmts rich [rich_step].
Proof.
  assert (N : forall k n, k_tok k = TIdentifier -> k_val k = VStr (lit n) -> attribute_name k (lit n)) by (intros; left; auto).
  assert (SW : forall k w s, In (w, s) step_styles -> k_tok k = TIdentifier -> k_val k = VStr (lit w) -> style_word k s) by (intros k w s H1 H2 H3; exists w; auto).
  rewrite <- (app_nil_r rich). apply sts_next; [|constructor|exact Logic.I]. apply st_rel, rel_assign, as_resource. unfold rich.
  apply (@r_step true [] _ SWorkflow _ (lit "w")); [reflexivity|apply (@SW _ "workflow"%string); [cbn; auto|reflexivity..]|apply N; reflexivity|exact Logic.I|].
  set (b := [W "resource"; W "n"; P TLc "{"; P TRc "}"; V "all"; P TAssign "="; W "each"; P TLp "("; V "p"; P TRp ")"; P TPipe "|"; V "x"; P TPipeEnd "|";
   P TLc "{"; W "k"; P TFarrow "=>"; W "f"; P TLp "("; V "x"; P TRp ")"; P TRc "}"; T TFunction (VStr (lit "function")) "function"; W "g"; P TLc "{"; P TRc "}"]).
  match goal with |- D _ _ _ _ [rich_step] => idtac end. unfold rich_step.
  match goal with |- D _ _ _ _ [EStep _ _ _ _ (Some (EBlock _ ?l))] => set (es := l) end.
  refine (@step_parts true [] SWorkflow (lit "w") (P TLc "{") [W "parameters"; P TFarrow "=>"; P TLp "("; V "p"; P TRp ")"; P TComma ","; W "returns"; P TFarrow "=>"; P TLp "("; V "r"; P TAssign "="; W "v"; P TRp ")"]
    [entry "parameters" (EList z [EParam z (lit "p") None None false]); entry "returns" (EList z [EParam z (lit "r") (Some (EString z (lit "v"))) None false])]
    (P TRc "}") [] [] (P TLc "{" :: b ++ [P TRc "}"]) [EBlock z es] _ _ _ _ _); [reflexivity| |reflexivity|constructor|].
  - refine (@l_more _ _ _ [W "parameters"; P TFarrow "=>"; P TLp "("; V "p"; P TRp ")"] _ (P TComma ",") [W "returns"; P TFarrow "=>"; P TLp "("; V "r"; P TAssign "="; W "v"; P TRp ")"] _ _ _ _); [|reflexivity|].
    + refine (@sp_parameters _ _ (W "parameters") (P TFarrow "=>") (P TLp "(") [V "p"] _ (P TRp ")") _ _ _ _ _); [apply N; reflexivity|reflexivity|left; reflexivity|apply one_param|reflexivity].
    + apply l_one. refine (@sp_returns _ _ (W "returns") (P TFarrow "=>") (P TLp "(") [V "r"; P TAssign "="; W "v"] _ (P TRp ")") _ _ _ _ _); [apply N; reflexivity|reflexivity|left; reflexivity| |reflexivity].
      apply l_one. refine (@rp_param _ _ [] [] (V "r") (lit "r") [P TAssign "="; W "v"] [EString z (lit "v")] _ _ _ _); [constructor|reflexivity|reflexivity|].
      apply oa_one; [reflexivity|]. apply al_name, N; reflexivity.
  - apply (@sb_steps true _ (P TLc "{") b es (P TRc "}")); [reflexivity| |reflexivity]. cbn [inside app]. unfold b, es.
    refine (@steps_step true _ (W "resource") SResource (W "n") (lit "n") [P TLc "{"; P TRc "}"; V "all"; P TAssign "="; W "each"; P TLp "("; V "p"; P TRp ")"; P TPipe "|"; V "x"; P TPipeEnd "|";
      P TLc "{"; W "k"; P TFarrow "=>"; W "f"; P TLp "("; V "x"; P TRp ")"; P TRc "}"] _ [T TFunction (VStr (lit "function")) "function"; W "g"; P TLc "{"; P TRc "}"] _ _ _ _ _).
    + apply (@SW _ "resource"%string); [cbn; auto|reflexivity..].
    + apply N; reflexivity.
    + refine (@step_parts true [lit "w"] SResource (lit "n") (P TLc "{") [] [] (P TRc "}") [V "all"; P TAssign "="; W "each"; P TLp "("; V "p"; P TRp ")"; P TPipe "|"; V "x"; P TPipeEnd "|"]
        [iteration (lit "all") (lit "each") [EParam z (lit "p") None None false] [EParam z (lit "x") None None false]]
        [P TLc "{"; W "k"; P TFarrow "=>"; W "f"; P TLp "("; V "x"; P TRp ")"; P TRc "}"] [EHash z [entry "k" (later [EString z (lit "f"); EList z [later [EString z (lit "$x")]]])]] _ _ _ _ _); [reflexivity|constructor|reflexivity| |].
      * refine (@it_some true _ (lit "n") (lit "all") [V "all"; P TAssign "="] (W "each") (lit "each") (P TLp "(") [V "p"] _ (P TRp ")") (P TPipe "|") [V "x"] _ (P TPipeEnd "|") _ _ _ _ _ _ _ _ _ _); try reflexivity; try apply one_param.
        -- right. exists (V "all"), (P TAssign "="). repeat split; reflexivity.
        -- cbn. auto.
        -- left. reflexivity.
      * refine (@sb_state true _ (P TLc "{") [W "k"; P TFarrow "=>"; W "f"; P TLp "("; V "x"; P TRp ")"] [EKeyed z (EQName z (lit "k")) (ECallNamed z true (EQName z (lit "f")) [EUn z KVariable (EQName z (lit "x"))] None)] (P TRc "}") _ _ _ _); try reflexivity.
        apply l_one. refine (@sa_attr true _ (W "k") (lit "k") (P TFarrow "=>") [W "f"; P TLp "("; V "x"; P TRp ")"] _ _ _ _); [apply N; reflexivity|reflexivity|].
        apply x_select, s_op. apply (@up_ops true _ _ _ 0); [|lia|lia]. apply o_unary, u_primary.
        apply (@p_chain true _ _ (ECallNamed z true (EQName z (lit "f")) [EUn z KVariable (EQName z (lit "x"))] None)).
        refine (@ch_call true _ [W "f"] (EQName z (lit "f")) [P TLp "("; V "x"; P TRp ")"] [EUn z KVariable (EQName z (lit "x"))] [] [] _ _ _); [apply ch_atom; exact (@a_name true _ (W "f") (lit "f") eq_refl eq_refl)| |constructor].
        refine (@args_parens true _ (P TLp "(") [V "x"] (P TRp ")") [EUn z KVariable (EQName z (lit "x"))] _ _ _ _ _); [reflexivity| | |reflexivity].
        -- apply l_one, arg_plain. apply (@h_rel true _ (V "x") []); [vm_compute; intuition discriminate|]. apply op_rel; [|no_name]. apply atom_op; [|reflexivity|lia]. exact (@a_var true _ (V "x") (lit "x") eq_refl eq_refl).
        -- apply g_item; [cbn; tauto|constructor].
    + refine (@steps_function true _ (T TFunction (VStr (lit "function")) "function") (W "g") (lit "g") [] [] [] [] [P TLc "{"; P TRc "}"] (EBlock z []) [] [] _ _ _ _ _ _); try constructor; try reflexivity.
      * left. reflexivity.
      * apply (@b_braces true _ (P TLc "{") [] (P TRc "}") [] []); try constructor.
Qed.
Example C52_rich_case : manifest lyra rich_text [rich_step] /\ flat_map defs [rich_step] = [rich_function; rich_step].
Proof.
  split; [|reflexivity]. change rich_text with (render (rich ++ [rich_end])).
  apply (@manifest_of lyra 0 _ _ [rich_step]); [exact rich_stream|reflexivity|exact rich_derive|]. apply simple_statement. split; [intros []|reflexivity].
Qed.
Example C52_rich_run : exists e, parse conf_fuel lyra rich_text false = POk e /\ strip e = program [rich_step].
Proof. eexists. split; vm_compute; reflexivity. Qed.
(** a step without a body takes what follows for an iteration *)
Example C52_body_needed : forall s, In s ["resource a { } resource b { }"; "action a { } $x"; "resource a { } times"]%string -> forall e, parse conf_fuel lyra (lit s) false <> POk e.
Proof. intros s H e. cbn [In] in H. repeat (destruct H as [<-|H]; [vm_compute; discriminate|]). destruct H. Qed.
Print Assumptions C52_steps_are_parsed.
Print Assumptions C52_workflows.
Print Assumptions C52_styles_are_names_otherwise.
