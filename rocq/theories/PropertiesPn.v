(** * PropertiesPn: the PN of a parsed tree says what the tree is (C51)

    Stated with SpecPnTree.v: [read] is what a PN form means, [known] the tree
    without positions and the few things PN does not show. *)
From Verif Require Import Base Float Tokens Ast Pn ToPN Ctx Locator Lexer Parser Literal Visit Validator Api Conform.
From Verif Require Import SpecVisit SpecValidate SpecToPN SpecPn PnProof ToPNProof SpecShape SpecParse ParseProof PropertiesData PropertiesTree PropertiesParse SpecPnTree PnTreeProof.

Lemma below_trans e a anc d : below e a anc d -> forall anc' x, node_at d anc' x -> exists anc'', node_at e anc'' x.
Proof.
  induction 1; intros anc' y Hy.
  - eapply node_child; [eapply nth_error_In; eassumption|exact Hy].
  - destruct (IHbelow _ _ Hy) as (anc'' & K). eapply node_child; [eapply nth_error_In; eassumption|exact K].
Qed.
Lemma node_trans e anc d anc' x : node_at e anc d -> node_at d anc' x -> exists anc'', node_at e anc'' x.
Proof. intros [[-> ->]|(a & H)] Hx; [eauto|]. eapply below_trans; eassumption. Qed.

(** every node of every parsed tree, read from its PN *)
Theorem C51_PN_says_the_tree : forall o c fuel source single e c',
  parser_state o c -> parse_run fuel c source single = Ok e c' ->
  forall anc d q, node_at e anc d -> toPN d = Some q -> read (place_of d) q = Some (known d).
Proof.
  intros o c fuel source single e c' HP HR anc d q Hn Hq. apply readable; [|exact Hq].
  intros anc' x Hx. destruct (node_trans Hn Hx) as (anc'' & K). exact (C18_parsed_trees_follow_the_grammar HP HR K).
Qed.
(** so trees with the same PN are the same, as far as PN shows *)
Theorem C51_same_PN_same_tree : forall o1 c1 fuel1 source1 e1 c1' o2 c2 fuel2 source2 e2 c2' q,
  parser_state o1 c1 -> parse_run fuel1 c1 source1 false = Ok e1 c1' ->
  parser_state o2 c2 -> parse_run fuel2 c2 source2 false = Ok e2 c2' ->
  toPN e1 = Some q -> toPN e2 = Some q -> known e1 = known e2.
Proof.
  intros o1 c1 fuel1 source1 e1 c1' o2 c2 fuel2 source2 e2 c2' q P1 R1 P2 R2 Q1 Q2.
  pose proof (C51_PN_says_the_tree P1 R1 (or_introl (conj eq_refl eq_refl)) Q1) as K1.
  pose proof (C51_PN_says_the_tree P2 R2 (or_introl (conj eq_refl eq_refl)) Q2) as K2.
  destruct (C18_parsed_roots P1 R1) as (b1 & d1 & E1 & _). destruct (C18_parsed_roots P2 R2) as (b2 & d2 & E2 & _).
  rewrite E1 in K1 at 1. rewrite E2 in K2 at 1. cbn [place_of] in K1, K2. congruence.
Qed.
(** and so are trees with the same data, or the same text when that can be read *)
Theorem C51_data_says_the_tree : forall o c fuel source e c' q,
  parser_state o c -> parse_run fuel c source false = Ok e c' -> toPN e = Some q ->
  match of_data (toData q) with Some p => read Plain p | None => None end = Some (known e).
Proof.
  intros o c fuel source e c' q P R Q. rewrite C04_toData_lossless.
  pose proof (C51_PN_says_the_tree P R (or_introl (conj eq_refl eq_refl)) Q) as K.
  destruct (C18_parsed_roots P R) as (b & d & E & _). rewrite E in K at 1. exact K.
Qed.
Theorem C51_text_says_the_tree : forall o c fuel source e c' q,
  parser_state o c -> parse_run fuel c source false = Ok e c' -> toPN e = Some q -> faithful q ->
  match read_pn (format q) with Some p => read Plain p | None => None end = Some (known e).
Proof.
  intros o c fuel source e c' q P R Q F. rewrite (C03_format_readable F).
  pose proof (C51_PN_says_the_tree P R (or_introl (conj eq_refl eq_refl)) Q) as K.
  destruct (C18_parsed_roots P R) as (b & d & E & _). rewrite E in K at 1. exact K.
Qed.
(** A tree with most forms of nodes: its PN exists and is read. *)
Definition pn_source : string := "class a($x, Integer *$y = 1) inherits b { file { ['/x', ""y${x}""]: ensure => $x ? { 1 => -2, default => [0x3, a => 4] }, * => { b +  2 => !c } } case $b { 1, 'a': { notice 1 } } } Foo <| a == 1 |> { b +> 2 } $x.map |$y| >> String { $y[1] } if 1 { } elsif 2 { 3 } else { f(1) } @user { 'a': } node /x/ inherits default { } function f() >> Integer[1] { 1.5 } type A = B unless $1 in [] { undef } A { b => 1 } -> A[b] { c => default }"%string.
Example C51_case : exists e c' q, parse_run conf_fuel (createParser puppet) (lit pn_source) false = Ok e c'
  /\ toPN e = Some q /\ nodes e = 118%nat /\ read Plain q = Some (known e).
Proof. eexists _, _, _. split; [vm_compute; reflexivity|]. split; [vm_compute; reflexivity|]. split; vm_compute; reflexivity. Qed.
(** What [known] drops is not in PN: two sources with different trees and the same PN. *)
Example C51_not_shown : exists e1 c1 e2 c2, 
  parse_run conf_fuel (createParser puppet) (lit "if 1 { } elsif 2 { }") false = Ok e1 c1
  /\ parse_run conf_fuel (createParser puppet) (lit "if 1 { } else { if 2 { } }") false = Ok e2 c2
  /\ toPN e1 = toPN e2 /\ toPN e1 <> None.
Proof. eexists _, _, _, _. split; [vm_compute; reflexivity|]. split; [vm_compute; reflexivity|]. split; [vm_compute; reflexivity|vm_compute; discriminate]. Qed.
Print Assumptions C51_PN_says_the_tree.
Print Assumptions C51_same_PN_same_tree.
Print Assumptions C51_data_says_the_tree.
Print Assumptions C51_text_says_the_tree.
