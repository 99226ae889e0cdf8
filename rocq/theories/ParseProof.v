(** * ParseProof: what the invariant of ShapeParse.v says about Parse (C18, C19,
      C20, C21, C24, C27) *)
From Verif Require Import Base Float Tokens Ast Pn ToPN Ctx Locator Lexer Parser Validator Api.
From Verif Require Import Wp LexFrame SpecVisit VisitProof SpecValidate SpecToPN ToPNProof SpecShape ShapeBase ShapeLex ShapeParse SpecParse.

Lemma start_St o c source : c_opts c = o -> gate o (c_tok c) -> St o false (c_names c) [] (start_ctx source c).
Proof. intros H1 H2. unfold St. cbn. split; [exact H1|]. split; [reflexivity|]. split; [reflexivity|]. split; [exact H2|]. split; [discriminate|constructor]. Qed.

Lemma parse_run_ok o fuel c source single : c_opts c = o -> gate o (c_tok c) ->
  match parse_run fuel c source single with
  | Ok e c' => St o true (c_names c) (c_defs c') c' /\ ok o (c_defs c') (c_names c) e
               /\ (if single then root_role single e = true
                   else exists b, e = EProgram (mkpos 0 (c_pos c')) b (c_defs c') /\ is_root b = true)
  | Err e c' => c_opts c' = o /\ gate o (c_tok c')
  | Fuel => True
  end.
Proof.
  intros H1 H2. pose proof (parseTop_ok (@run_ok o fuel) single (start_St source H1 H2)) as H.
  unfold wp in H. unfold parse_run. destruct (parseTop _ _ _) as [e c'|e c'|]; [|exact H|exact I].
  destruct H as (ds & _ & HS & HG & HR). assert (c_defs c' = ds) as -> by apply HS. split; [exact HS|].
  destruct single; [split; [exact HG|exact HR]|]. split; [|eexists; split; [reflexivity|exact HR]].
  apply (@ok_intro o ds (c_names c) _ (c_names c)); [reflexivity|exact HR|exact I|discriminate|]. constructor; [exact HG|constructor].
Qed.

Lemma parser_state_gate o c : parser_state o c -> c_opts c = o /\ gate o (c_tok c).
Proof.
  induction 1 as [|c fuel source single e c' H [IH1 IH2] E|c fuel source single e c' H [IH1 IH2] E]; [split; [reflexivity|exact I]| |];
    pose proof (@parse_run_ok o fuel c source single IH1 IH2) as K; rewrite E in K; [|exact K].
  destruct K as ((K1 & _ & _ & K4 & _) & _). auto.
Qed.

(** ** From the invariant to the nodes *)
Section Nodes.
Variable o : opts.
Variable ds : list expr.
Definition ends_with (ns : list str) (s : option str) : Prop :=
  match ns with [] => s = None | _ => s = Some (join (lit "::") ns) end.
(** [ends_with ns s]: [s] is the scope the names [ns] make *)
Lemma join_qualify ns n s : ends_with ns s -> join (lit "::") (ns ++ [n]) = qualify s n.
Proof.
  unfold ends_with, qualify. destruct ns as [|a ns]; intros ->; [reflexivity|]. revert a.
  induction ns as [|b ns IH]; intros a; [reflexivity|].
  change (join (lit "::") ((a :: b :: ns) ++ [n])) with (a ++ lit "::" ++ join (lit "::") ((b :: ns) ++ [n])).
  rewrite IH. change (join (lit "::") (a :: b :: ns)) with (a ++ lit "::" ++ join (lit "::") (b :: ns)).
  now rewrite <- !app_assoc.
Qed.
Lemma ends_push ns n s : ends_with ns s -> ends_with (ns ++ [n]) (Some (qualify s n)).
Proof.
  intros H. unfold ends_with. destruct (ns ++ [n]) eqn:E; [destruct ns; discriminate|]. rewrite <- E. f_equal. symmetry. now apply join_qualify.
Qed.
(** the scope below [e] when the scope at [e] is [s] *)
Lemma scope_step anc ns e ns' : ends_with ns (scope_of anc) -> naming ns e ns' ->
  (match e with EConcat _ _ => False | _ => True end) -> ends_with ns' (scope_of (e :: anc)).
Proof.
  intros H N K. pose proof (fun n => ends_push n H) as P. pose proof (fun n => @join_qualify ns n _ H) as J.
  destruct e; cbn [naming] in N; cbn [scope_of]; try (subst ns'; exact H); try contradiction.
  - destruct k; try (subst ns'; exact H). destruct N as (n & -> & ->). rewrite J. apply P.
  - destruct plan; subst ns'; [apply P|exact H].
  - destruct st; try (destruct N as (_ & ->); exact H). destruct N as (n & -> & ->). rewrite J. apply P.
Qed.

Lemma ok_node e ns : ok o ds ns e -> grammar e /\ allowed o e /\ listed ds e.
Proof. intros H. inversion H; subst. auto. Qed.
Lemma ok_child e ns : ok o ds ns e -> exists ns', naming ns e ns' /\ forall i c, nth_error (parts e) i = Some c -> ok o ds ns' c.
Proof.
  intros H. inversion H as [ns0 e0 ns' H1 H2 H3 H4 H5]; subst. exists ns'. split; [exact H1|]. intros i c Hc.
  apply nth_error_In in Hc. rewrite parts_children in Hc. rewrite Forall_forall in H5. auto.
Qed.
Lemma ok_below e a anc d : below e a anc d -> forall ns, ok o ds ns e ->
  exists ns', ok o ds ns' d.
Proof.
  induction 1 as [e i c Hc|e i c a anc d Hc HB IH]; intros ns H; destruct (ok_child H) as (ns' & _ & K); eauto.
Qed.
Lemma ok_at e anc d ns : ok o ds ns e -> node_at e anc d -> exists ns', ok o ds ns' d.
Proof. intros H [[_ ->]|(a & Hb)]; [eauto|eapply ok_below; eauto]. Qed.
Lemma ok_scope e a anc d : below e a anc d -> forall ns anc0, ok o ds ns e -> ends_with ns (scope_of anc0) ->
  outside_strings anc -> exists ns', ok o ds ns' d /\ ends_with ns' (scope_of (anc ++ anc0)).
Proof.
  induction 1 as [e i c Hc|e i c a anc d Hc HB IH]; intros ns anc0 H HE HO; destruct (ok_child H) as (ns' & N & K).
  - exists ns'. split; [eauto|]. inversion HO; subst. now apply scope_step with ns.
  - apply Forall_app in HO. destruct HO as [HO1 HO2]. inversion HO2; subst. rewrite <- app_assoc.
    eapply IH; [eauto| |exact HO1]. cbn [app]. now apply scope_step with ns.
Qed.
Lemma name_here ns s e x : ok o ds ns e -> ends_with ns s -> named_node e = Some x -> exists n, x = qualify s n.
Proof.
  intros H HE Hx. pose proof (fun n => @join_qualify ns n _ HE) as J. inversion H as [ns0 e0 ns' H1 H2 H3 H4 H5]; subst.
  destruct e; try discriminate; cbn [named_node naming] in *.
  - destruct k; try discriminate. destruct H1 as (n & -> & _). inversion Hx. eauto.
  - destruct st; destruct H1 as (n & H1); try destruct n as (n & ->); try destruct H1 as (-> & _); inversion Hx; eauto.
Qed.
Lemma ok_param_shape e ns : ok o ds ns e -> param_shape_here e.
Proof.
  intros H. destruct (ok_node H) as (Gr & _ & _).
  assert (P: forall l, all is_param l -> Forall (fun x => exists p n v t r, x = EParam p n v t r) l).
  { intros l Hl. apply forallb_forall with (x := _) in Hl || idtac. unfold all in Hl. rewrite forallb_forall in Hl.
    apply Forall_forall. intros x Hx. specialize (Hl x Hx). destruct x; try discriminate. eauto 6. }
  destruct e; try exact I; cbn [grammar] in Gr; cbn.
  - destruct k; try exact I. destruct e; try discriminate; eauto 6.
  - apply P, Gr.
  - apply P, Gr.
  - apply P, Gr.
Qed.
End Nodes.

Lemma qualify_single n : join (lit "::") ([] ++ [n]) = n.
Proof. reflexivity. Qed.

(** ** Parse *)
Section Parse.
Variables (o : opts) (c : ctx) (fuel : nat) (source : str) (single : bool) (e : expr) (c' : ctx).
Hypothesis HP : parser_state o c.
Hypothesis HR : parse_run fuel c source single = Ok e c'.

Lemma parsed_ok : ok o (c_defs c') (c_names c) e.
Proof.
  destruct (parser_state_gate HP) as [H1 H2]. pose proof (@parse_run_ok o fuel c source single H1 H2) as H. rewrite HR in H. tauto.
Qed.
Lemma parsed_node anc d : node_at e anc d -> grammar d /\ allowed o d /\ listed (c_defs c') d.
Proof. intros H. destruct (ok_at parsed_ok H) as (ns & K). exact (ok_node K). Qed.
Lemma parsed_root : if single then is_root e || is_expression e = true else
  exists b, e = EProgram (mkpos 0 (c_pos c')) b (c_defs c') /\ is_root b = true.
Proof.
  destruct (parser_state_gate HP) as [H1 H2]. pose proof (@parse_run_ok o fuel c source single H1 H2) as H. rewrite HR in H.
  destruct H as (_ & _ & H). destruct single; exact H.
Qed.
Lemma parsed_names : c_names c' = c_names c.
Proof.
  destruct (parser_state_gate HP) as [H1 H2]. pose proof (@parse_run_ok o fuel c source single H1 H2) as H. rewrite HR in H. apply H.
Qed.
Lemma parsed_listing d : In d (c_defs c') -> is_listed d = true /\ forall anc x, node_at d anc x -> grammar x /\ allowed o x /\ listed (c_defs c') x.
Proof.
  destruct (parser_state_gate HP) as [H1 H2]. pose proof (@parse_run_ok o fuel c source single H1 H2) as H. rewrite HR in H.
  destruct H as ((_ & _ & _ & _ & _ & HL) & _). unfold listing in HL. rewrite Forall_forall in HL. intros Hd.
  destruct (HL d Hd) as (D1 & ns & D2). split; [exact D1|]. intros anc x Hx. destruct (ok_at D2 Hx) as (ns' & K). exact (ok_node K).
Qed.
Lemma parsed_name anc d x : c_names c = [] -> node_at e anc d -> outside_strings anc -> named_node d = Some x ->
  exists n, x = qualify (scope_of anc) n.
Proof.
  intros Hn Hd HO Hx. pose proof parsed_ok as K. rewrite Hn in K. destruct Hd as [[-> ->]|(a & Hb)].
  - eapply (name_here K); [|exact Hx]. reflexivity.
  - destruct (ok_scope (anc0 := []) Hb K eq_refl HO) as (ns' & K' & HE). rewrite app_nil_r in HE. eapply name_here; eauto.
Qed.
Lemma parsed_param_shape anc d : node_at e anc d -> param_shape_here d.
Proof. intros H. destruct (ok_at parsed_ok H) as (ns & K). exact (ok_param_shape K). Qed.
End Parse.

(** ** The parent of a node *)
Lemma below_parent e a anc d : below e a anc d -> exists parent anc', anc = parent :: anc' /\ In d (parts parent) /\ node_at e anc' parent.
Proof.
  induction 1 as [e i c H|e i c a anc d H B IH].
  - exists e, []. split; [reflexivity|]. split; [eapply nth_error_In; exact H|]. left. auto.
  - destruct IH as (q & anc' & -> & H1 & H2). exists q, (anc' ++ [e]). split; [reflexivity|]. split; [exact H1|].
    destruct H2 as [[-> ->]|(a' & H2)]; right; [exists [i]; now constructor|exists (i :: a'); econstructor; eassumption].
Qed.
Lemma comma_parent q d : grammar q -> In d (parts q) -> is_comma_list d = true -> is_block q = true.
Proof.
  intros HG HI HC. destruct d; try discriminate HC. 
  assert (AL: forall f l, all f l -> (forall p es, f (ECommaList p es) = false) -> ~ In (ECommaList p elements) l).
  { intros f l HA Hf K. unfold all in HA. rewrite forallb_forall in HA. specialize (HA _ K). rewrite Hf in HA. discriminate. }
  assert (OP: forall f o, opt f o -> (forall p es, f (ECommaList p es) = false) -> ~ In (ECommaList p elements) (match o with Some x => [x] | None => [] end)).
  { intros f o0 HO Hf K. destruct o0; [|exact K]. destruct K as [->|[]]. cbn in HO. rewrite Hf in HO. discriminate. }
  destruct q; try reflexivity; exfalso; cbn [parts grammar] in *;
    repeat match goal with
    | H : _ /\ _ |- _ => destruct H
    | H : In _ (_ ++ _) |- _ => apply in_app_or in H; destruct H
    | H : In _ (_ :: _) |- _ => destruct H as [H|H]
    | H : In _ [] |- _ => destruct H
    | H : False |- _ => destruct H
    | k : ukind |- _ => destruct k
    | H : ?x = ECommaList _ _ |- _ => subst x; try discriminate
    | H : _ \/ _ |- _ => destruct H; try discriminate
    | H : all _ _, K : In _ ?l |- _ => eapply AL; [exact H| |exact K]; reflexivity
    | H : opt _ _, K : In _ _ |- _ => eapply OP; [exact H| |exact K]; reflexivity
    end.
Qed.
