(** * GrammarCalls: statement calls and nested classes, as texts *)
From Verif Require Import Base Float Tokens Ast Ctx Lexer Parser Api SpecLex SpecGrammar SpecManifest SpecOps Utf8Facts GrammarTop GrammarSpace GrammarUse GrammarOps.
From Coq Require Import Lia ZifyBool.

Section Texts.
Variable o : opts.
Lemma last_some prev ts : prev <> None -> last_tok prev ts <> None.
Proof. revert prev. induction ts as [|k ts IH]; intros prev H; [exact H|]. apply IH. discriminate. Qed.
(** a text of words with blanks between *)
Lemma render_words k0 ts k : ok o None (k0 :: ts) -> k_gap k0 = [] -> k_txt k = [] -> render ((k0 :: ts) ++ [k]) = join (lit " ") (texts (k0 :: ts)) ++ k_gap k.
Proof.
  intros H G K. cbn [app]. unfold render. cbn [flat_map]. fold (render (ts ++ [k])). rewrite G. cbn [app]. destruct H as (_ & _ & _ & _ & _ & _ & HO).
  rewrite (render_rest (ok_gaps HO ltac:(discriminate)) K). unfold texts. cbn [map]. rewrite join_flat, <- app_assoc. reflexivity.
Qed.
(** ** Nested classes *)
Fixpoint class_toks (names : list str) (first : bool) : list tk :=
  match names with
  | [] => []
  | n :: rest => mk first TClass (VStr (lit "class")) 0 (lit "class") :: mk false TIdentifier (VStr n) 0 n :: mk false TLc VNil 0 (lit "{") ::
      class_toks rest false ++ [mk false TRc VNil 0 (lit "}")]
  end.
Lemma class_texts names first : texts (class_toks names first) = nested names.
Proof. revert first. induction names as [|n names IH]; intros first; [reflexivity|]. cbn [class_toks nested]. unfold texts in *. cbn [map]. rewrite map_app, IH. reflexivity. Qed.
Definition plain_name (w : str) : Prop := qualified lower w /\ ~ In w (map lit reserved_words).
Lemma unrooted_name w : plain_name w -> unrooted w = w.
Proof. intros [H _]. destruct H as [h t H _|h t rest H _ _]; unfold lower in H; unfold unrooted; destruct h as [|p|p]; try lia; do 6 (destruct p; try reflexivity; try lia). Qed.
Lemma class_ok names : Forall plain_name names -> forall prev, prev <> Some TQmark -> forall first, fits first prev -> ok o prev (class_toks names first) /\ (names <> [] -> last_tok prev (class_toks names first) = Some TRc).
Proof.
  induction 1 as [|n names [Hn Hr] _ IH]; intros prev HQ first HF; [split; [exact Logic.I|congruence]|]. cbn [class_toks].
  destruct (IH (Some TLc) ltac:(discriminate) false ltac:(discriminate)) as [I1 I2]. split.
  - apply mk_ok; [apply (tt_reserved o); vm_compute; tauto|intros ->; exact HF|intros ->; exact HF|intros; exact Logic.I|discriminate|discriminate|].
    apply mk_ok; [apply tt_name; assumption|discriminate|discriminate|intros; exact Logic.I|discriminate|discriminate|].
    apply mk_ok; [apply (tt_punct o); vm_compute; tauto|discriminate|discriminate|intros; cbn; discriminate|discriminate|discriminate|].
    apply ok_app; [exact I1|]. apply mk_ok; [apply (tt_punct o); vm_compute; tauto|intros _; apply last_some; discriminate|discriminate|intros; exact Logic.I|discriminate|discriminate|exact Logic.I].
  - intros _. unfold last_tok. cbn [fold_left]. rewrite fold_left_app. reflexivity.
Qed.
Lemma class_derive wf outer names : Forall plain_name names -> forall first, D wf outer Stmts (class_toks names first) (nest outer names) /\ statements (nest outer names) (nest outer names).
Proof.
  intros H. revert outer. induction H as [|n names Hn _ IH]; intros outer first; [split; constructor|]. destruct (IH (outer ++ [n]) false) as [I1 I2].
  cbn [class_toks nest]. split.
  - match goal with |- D _ _ _ ?ts _ => rewrite <- (app_nil_r ts) end. apply sts_next; [|constructor|exact Logic.I].
    apply st_rel, op_rel; [|intros _ (w & s & _ & X); discriminate X]. apply atom_op; [|reflexivity|lia].
    pose proof (@a_class wf outer (mk first TClass (VStr (lit "class")) 0 (lit "class")) (mk false TIdentifier (VStr n) 0 n) n [] [] (mk false TLc VNil 0 (lit "{") :: class_toks names false ++ [mk false TRc VNil 0 (lit "}")]) (EBlock z (nest (outer ++ [n]) names))) as X.
    rewrite (unrooted_name Hn) in X. apply X; [split; reflexivity|split; [left; reflexivity|reflexivity]|constructor|].
    eapply b_braces; [reflexivity|exact I1|exact I2|reflexivity].
  - apply simple_statement. split; [intros []|reflexivity].
Qed.
Theorem nested_parses names g : manifests o -> Forall plain_name names -> names <> [] -> end_gap g ->
  parses o (join (lit " ") (nested names) ++ g) false (program (nest [] names)).
Proof.
  intros HP HN Hne HG. set (k := mktk g false TEnd VNil 0 []). destruct (class_ok HN (prev := None) ltac:(discriminate) (first := true) eq_refl) as [HO _].
  destruct (class_derive (o_workflow o) [] HN true) as [HD HS]. apply manifest_parses; [exact HP|]. rewrite <- (class_texts names true).
  replace g with (k_gap k) by reflexivity. destruct (class_toks names true) as [|k0 ts] eqn:E; [destruct names; [congruence|discriminate]|].
  rewrite <- (@render_words k0 ts k HO ltac:(destruct names; cbn [class_toks] in E; [discriminate|injection E as <- _; reflexivity]) eq_refl).
  eapply manifest_of with (n := 0%nat); eauto. apply ok_stream; auto.
Qed.
(** ** Statement calls *)
Fixpoint list_toks (ts : list optree) : list tk :=
  match ts with
  | [] => []
  | [t] => toks t false
  | t :: rest => toks t false ++ mk false TComma VNil 0 (lit ",") :: list_toks rest
  end.
Lemma list_toks_cons t t2 ts : list_toks (t :: t2 :: ts) = toks t false ++ mk false TComma VNil 0 (lit ",") :: list_toks (t2 :: ts).
Proof. reflexivity. Qed.
Lemma list_ok ts : Forall legal ts -> forall prev, prev <> None -> ok o prev (list_toks ts).
Proof.
  induction 1 as [|t ts Ht Hts IH]; intros prev HP; [exact Logic.I|]. destruct (toks_good o Ht (first := false) HP) as [H1 (p & H2 & H3)].
  destruct ts as [|t2 ts]; [exact H1|]. rewrite list_toks_cons. apply ok_app; [exact H1|].
  apply mk_ok; [apply (tt_punct o); vm_compute; tauto|intros _; apply last_some; exact HP|discriminate|intros; exact Logic.I|discriminate|discriminate|]. apply IH. discriminate.
Qed.
Lemma join_app (sep : str) a b : a <> [] -> b <> [] -> join sep (a ++ b) = join sep a ++ sep ++ join sep b.
Proof.
  induction a as [|x a IH]; intros Ha Hb; [congruence|]. destruct a as [|y a].
  - cbn [app]. destruct b; [congruence|]. reflexivity.
  - change ((x :: y :: a) ++ b) with (x :: (y :: a) ++ b). change (join sep (x :: (y :: a) ++ b)) with (x ++ sep ++ join sep ((y :: a) ++ b)). rewrite IH by (discriminate || exact Hb).
    change (join sep (x :: y :: a)) with (x ++ sep ++ join sep (y :: a)). rewrite <- !app_assoc. reflexivity.
Qed.
Lemma words_some t : words t <> [].
Proof. rewrite <- (texts_toks t true). intros E. apply (@toks_some t true). destruct (toks t true); [reflexivity|discriminate]. Qed.
Lemma list_texts ts : ts <> [] -> join (lit " ") (texts (list_toks ts)) = comma_separated ts.
Proof.
  induction ts as [|t ts IH]; intros H; [congruence|]. destruct ts as [|t2 ts]; [cbn [list_toks]; rewrite texts_toks; reflexivity|].
  rewrite list_toks_cons. unfold texts. rewrite map_app. cbn [map]. fold (texts (toks t false)). fold (texts (list_toks (t2 :: ts))).
  change (k_txt (mk false TComma VNil 0 (lit ","))) with (lit ","). rewrite join_app; [|rewrite texts_toks; apply words_some|discriminate].
  rewrite texts_toks. fold (written t). unfold comma_separated. cbn [map]. change (map written ts) with (map written ts).
  change (join (lit " , ") (written t :: written t2 :: map written ts)) with (written t ++ lit " , " ++ join (lit " , ") (map written (t2 :: ts))).
  fold (comma_separated (t2 :: ts)). rewrite <- IH by discriminate. change (lit " , ") with (lit " " ++ lit "," ++ lit " "). rewrite <- !app_assoc. f_equal. f_equal.
  change (lit "," :: texts (list_toks (t2 :: ts))) with ([lit ","] ++ texts (list_toks (t2 :: ts))).
  rewrite join_app; [reflexivity|discriminate|]. intros E. assert (X : list_toks (t2 :: ts) = []) by (destruct (list_toks (t2 :: ts)); [reflexivity|discriminate]). destruct ts; cbn [list_toks] in X; [now apply toks_some in X|]. destruct (toks t2 false); discriminate.
Qed.
Lemma rel_of wf ns t : legal t -> D wf ns Rel (toks t false) [shown t].
Proof. intros H. apply op_rel; [|intros _; apply shown_style]. eapply up_ops; [apply toks_derive; exact H|apply legal_prec; exact H|lia]. Qed.
Lemma rels_of wf ns t ts : Forall legal (t :: ts) -> D wf ns Rels (mk false TComma VNil 0 (lit ",") :: list_toks (t :: ts)) (map shown (t :: ts)).
Proof.
  revert t. induction ts as [|t2 ts IH]; intros t H; inversion H; subst.
  - cbn [map list_toks]. apply rels_one; [reflexivity|apply rel_of; assumption].
  - rewrite list_toks_cons. cbn [map]. apply rels_more; [reflexivity|apply rel_of; assumption|apply IH; assumption].
Qed.
Lemma begins t : begins_plain t -> legal t -> match toks t false with k :: _ => In (k_tok k) [TVariable; TInteger; TNot] | [] => False end.
Proof.
  induction t as [w|n|a IH|a IH|a IH|n w k a IHa b IHb]; cbn [begins_plain toks legal]; try (intros; cbn; tauto). intros [H1 H2] (_ & HA & _).
  assert (E : (n <? precedence a)%nat = false) by lia. rewrite E. cbn [wrap]. specialize (IHa H2 HA). destruct (toks a false); [destruct IHa|exact IHa].
Qed.
(** the statement that the arguments are *)
Definition args_tree (ts : list optree) : expr := match ts with [t] => shown t | _ => ECommaList z (map shown ts) end.
Lemma stmt_of wf ns ts : Forall legal ts -> ts <> [] -> D wf ns Stmt (list_toks ts) [args_tree ts].
Proof.
  intros H Hne. destruct ts as [|t [|t2 ts]]; [congruence| |]; inversion H; subst.
  - apply st_rel, rel_of. assumption.
  - rewrite list_toks_cons. apply (@st_list wf ns (toks t false) (shown t)); [apply rel_of; assumption|apply rels_of; assumption].
Qed.
Lemma shown_used t : used true (shown t) = shown t.
Proof. destruct t; reflexivity. Qed.
Lemma args_of ts : ts <> [] -> arguments (args_tree ts) = map shown ts.
Proof. destruct ts as [|t [|t2 ts]]; [congruence| |reflexivity]. intros _. cbn [args_tree map]. unfold arguments. destruct t; reflexivity. Qed.
Theorem call_parses f t ts g : manifests o -> In f statement_functions -> Forall legal (t :: ts) -> begins_plain t -> end_gap g ->
  parses o (lit f ++ lit " " ++ comma_separated (t :: ts) ++ g) false (program [ECallNamed z false (EQName z (lit f)) (map shown (t :: ts)) None]).
Proof.
  intros HP Hf HL HB HG. set (k := mktk g false TEnd VNil 0 []). set (k0 := mk true TIdentifier (VStr (lit f)) 0 (lit f)).
  assert (HO : ok o None (k0 :: list_toks (t :: ts))).
  { apply mk_ok; [|discriminate|reflexivity|intros; exact Logic.I|discriminate|discriminate|apply list_ok; [exact HL|discriminate]].
    unfold statement_functions in Hf. cbn [In] in Hf. repeat (destruct Hf as [<-|Hf]; [apply tt_name; [apply q_one; [unfold lower; cbn; lia|repeat constructor; unfold wordchar, lower; cbn; lia]|vm_compute; intuition discriminate]|]). destruct Hf. }
  replace (lit f ++ lit " " ++ comma_separated (t :: ts) ++ g) with (render ((k0 :: list_toks (t :: ts)) ++ [k])).
  2: { rewrite (@render_words k0 (list_toks (t :: ts)) k HO eq_refl eq_refl). rewrite <- list_texts by discriminate. unfold texts. cbn [map k_txt k0 mk]. 
       destruct (list_toks (t :: ts)) as [|k1 l] eqn:E; [exfalso; destruct ts; cbn [list_toks] in E; [now apply toks_some in E|destruct (toks t false); discriminate]|].
       cbn [map]. change (join (lit " ") (lit f :: k_txt k1 :: map k_txt l)) with (lit f ++ lit " " ++ join (lit " ") (k_txt k1 :: map k_txt l)). rewrite <- !app_assoc. reflexivity. }
  apply manifest_parses; [exact HP|]. apply (@manifest_of o 0 _ k [EQName z (lit f); args_tree (t :: ts)]); [apply ok_stream; auto|reflexivity| |].
  - change (k0 :: list_toks (t :: ts)) with ([k0] ++ list_toks (t :: ts)). apply sts_next.
    + apply st_rel, op_rel; [apply atom_op; [apply a_name; reflexivity|reflexivity|lia]|]. intros _ (w & s & HI & X). injection X as X. unfold statement_functions in Hf. cbn [In] in Hf. cbn [In step_styles] in HI.
      repeat (destruct HI as [HI|HI]; [injection HI as <- _; repeat (destruct Hf as [<-|Hf]; [discriminate X|]); destruct Hf|]). destruct HI.
    + rewrite <- (app_nil_r (list_toks (t :: ts))). apply sts_next; [apply stmt_of; [exact HL|discriminate]|constructor|exact Logic.I].
    + inversion HL; subst. assert (X := begins HB H1). assert (Y : match list_toks (t :: ts) with k :: _ => In (k_tok k) [TVariable; TInteger; TNot] | [] => False end).
      { destruct ts; [exact X|]. rewrite list_toks_cons. destruct (toks t false); [destruct X|exact X]. }
      destruct (list_toks (t :: ts)); [destruct Y|]. cbn [apart]. unfold stops. cbn [In] in Y. destruct Y as [Y|[Y|[Y|[]]]]; rewrite <- Y; exact Logic.I.
  - rewrite <- (@args_of (t :: ts)) by discriminate. apply sts_call; [|constructor]. exists (lit f). split; [reflexivity|]. apply in_map. exact Hf.
Qed.
End Texts.
