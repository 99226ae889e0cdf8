(** * PropertiesTemplate: EPP templates with tags (C50)

    What a template is and what its tree is, is in SpecEpp.v. *)
From Verif Require Import Base Float Tokens Ast Ctx Lexer Parser Api Conform SpecLex SpecGrammar SpecSplice SpecManifest SpecOps SpecEpp.
From Verif Require Import Utf8Facts SpliceProof GrammarTop GrammarUse GrammarOps GrammarCalls PropertiesSplice GrammarEpp.
From Coq Require Import Lia.

(** ** C50 *)
(** Every template is parsed into a lambda with its parameters that renders its
    texts and the values of its expressions, in order. *)
Theorem C50_templates : forall o source single ps r,
  templates o -> SpecEpp.template o source ps r -> parses o source single (rendering single ps r).
Proof. exact template_parses. Qed.
(** so a template has only one reading *)
Theorem C50_one_reading : forall o source ps1 r1 ps2 r2,
  templates o -> SpecEpp.template o source ps1 r1 -> SpecEpp.template o source ps2 r2 -> ps1 = ps2 /\ r1 = r2.
Proof.
  intros o source ps1 r1 ps2 r2 HO H1 H2. pose proof (parses_unique (C50_templates true HO H1) (C50_templates true HO H2)) as X.
  unfold rendering, template_tree in X. injection X as E1 E2. auto.
Qed.

(** ** Texts and operator expressions *)
Fixpoint ptoks (g pre : str) (ps : list part) : list tk :=
  match ps with
  | [] => [mktk g false TEnd VNil 0 pre]
  | p :: ps' => mktk g false TRenderExpr VNil 0 (pre ++ lit "<%=") :: toks (p_expr p) false ++
      match p_out p with
      | [] => ptoks [32] (lit "%>" ++ encode (p_src p)) ps'
      | _ => mktk [32] false TRenderString (VStr (encode (p_out p))) 0 (lit "%>" ++ encode (p_src p)) :: ptoks [] [] ps'
      end
  end.
Definition part_shown (p : part) : list expr := EUn z KRender (shown (p_expr p)) :: text_tree (p_out p).
(** nothing is pending, or a closed tag with a text that says nothing *)
Definition pending (g pre : str) : Prop := gap false g /\ (pre = [] \/ exists src, pre = lit "%>" ++ encode src /\ epp_text src []).
Lemma render_app a b : render (a ++ b) = render a ++ render b.
Proof. apply flat_map_app. Qed.
Lemma toks_render (o : opts) t : legal t -> render (toks t false) = 32 :: SpecOps.written t.
Proof.
  intros HL. pose proof (@ops_text o t [] HL) as X. rewrite render_app in X. 
  replace (render [mktk [32] false TEnd VNil 0 ["}"%ch]]) with (lit " }") in X by reflexivity. rewrite app_nil_r in X.
  change (32 :: SpecOps.written t ++ lit " }") with ((32 :: SpecOps.written t) ++ lit " }") in X. exact (app_inv_tail _ _ _ X).
Qed.
Lemma ptoks_render (o : opts) ps : Forall proper ps -> forall g pre, render (ptoks g pre ps) = g ++ pre ++ flat_map part_text ps.
Proof.
  induction 1 as [|p ps [HL HT] _ IH]; intros g pre.
  - cbn. rewrite !app_nil_r. reflexivity.
  - cbn [ptoks flat_map]. unfold part_text at 1. change (lit "<%= ") with (lit "<%=" ++ [32]).
    assert (X : forall l, render (toks (p_expr p) false ++ l) = [32] ++ SpecOps.written (p_expr p) ++ render l) by (intros l; rewrite render_app, (toks_render o HL); reflexivity).
    destruct (p_out p); unfold render at 1; cbn [flat_map k_gap k_txt]; match goal with |- context [flat_map _ (?a ++ ?b)] => fold (render (a ++ b)) end; rewrite X.
    + rewrite IH. change (lit " %>") with ([32] ++ lit "%>"). rewrite <- !app_assoc. reflexivity.
    + unfold render at 1. cbn [flat_map k_gap k_txt]. fold (render (ptoks [] [] ps)). rewrite IH. change (lit " %>") with ([32] ++ lit "%>"). cbn [app]. rewrite <- !app_assoc. reflexivity.
Qed.
Lemma parts_tag ps : tag_or_end (flat_map part_text ps) /\ ~ starts_with (flat_map part_text ps) ["<"%ch; "%"%ch; "-"%ch].
Proof.
  destruct ps as [|p ps]; cbn [flat_map]; [split; [now left|intros (s & X); discriminate X]|].
  unfold part_text at 1 3. change (lit "<%= ") with ["<"%ch; "%"%ch; "="%ch; 32]. cbn [app]. split.
  - right. eexists. split; [reflexivity|]. right. eexists _, _. split; [reflexivity|]. repeat split; try lia; discriminate.
  - intros (s & X). discriminate X.
Qed.
Lemma parts_said ps src out : epp_text src out -> said src (flat_map part_text ps) out.
Proof. intros H. exists out. split; [exact H|]. right. split; [apply parts_tag|reflexivity]. Qed.
Lemma pending_lead ps g pre : pending g pre -> exists f, lead f true pre (flat_map part_text ps).
Proof.
  intros [_ [->|(src & -> & H)]]; [exists true; constructor|]. exists false. rewrite <- (app_nil_r (encode src)). rewrite app_assoc. rewrite <- app_assoc.
  apply (@lead_close true (lit "%>") src []); [left; reflexivity|exact (parts_said ps H)|apply parts_tag|constructor].
Qed.
Lemma ops_expression wf t : legal t -> D wf [] Expression (toks t false) [shown t].
Proof. intros HL. apply x_select, s_op. eapply up_ops; [apply toks_derive; exact HL|apply legal_prec; exact HL|lia]. Qed.
Section Parts.
Variable o : opts.
Hypothesis Hepp : o_epp o = true.
Lemma ok_stream_app ts : forall prev2 prev rest, prev <> None -> ok o prev ts -> ts <> [] -> (exists s, render rest = 32 :: s) ->
  (forall p2 p, p <> None -> stream o (top o 0) p2 p rest) -> stream o (top o 0) prev2 prev (ts ++ rest).
Proof.
  induction ts as [|k ts IH]; intros prev2 prev rest Hp H Hne (s & Hs) HR; [congruence|]. cbn [app stream ok] in *. destruct H as (A & B & C & E & F & G & H).
  split; [apply wr_token; [exact A|congruence]|]. split; [left; exact B|]. split; [apply E|].
  split; [|split; [intros X; rewrite X in A; destruct (SpliceProof.no_text A)|split; [congruence|]]].
  - apply F. left. destruct ts as [|k2 ts]; [cbn [app]; rewrite Hs; reflexivity|]. cbn [app ok] in *. destruct H as (_ & _ & C2 & _). unfold render. cbn [flat_map]. rewrite C2 by discriminate. reflexivity.
  - destruct ts as [|k2 ts]; [cbn [app]; apply HR; discriminate|]. apply IH; [discriminate|exact H|discriminate|eauto|exact HR].
Qed.
Lemma gap_space : gap false [32].
Proof. repeat constructor. Qed.
Lemma ptoks_stream ps : Forall proper ps -> forall g pre prev2 prev, pending g pre -> stream o (top o 0) prev2 (Some prev) (ptoks g pre ps).
Proof.
  induction 1 as [|p ps [HL HT] HF IH]; intros g pre prev2 prev HP.
  - cbn [ptoks stream k_tok k_gap k_brk k_val k_txt k_radix embedded top].
    destruct (@pending_lead [] g pre HP) as (f & HLd). cbn [flat_map] in HLd.
    split; [|split; [left; apply HP|split; [exact Logic.I|split; [intros []|split; [discriminate|auto]]]]].
    destruct HP as [_ [->|(src & -> & H)]]; [apply wr_token; [constructor|reflexivity]|]. eapply wr_end; eauto. discriminate.
  - destruct (@pending_lead (p :: ps) g pre HP) as (f & HLd).
    assert (HN : forall g' pre' p2 p', pending g' pre' -> p' <> None -> stream o (top o 0) p2 p' (ptoks g' pre' ps)).
    { intros g' pre' p2 [p'|] HP' X; [|congruence]. apply IH. exact HP'. }
    destruct (@toks_good o (p_expr p) HL false (Some TRenderExpr) ltac:(discriminate)) as [HO _].
    cbn [ptoks stream k_tok k_gap k_brk k_val k_txt k_radix embedded top].
    split; [|split; [left; apply HP|split; [exact Logic.I|split; [intros []|split; [discriminate|split; [discriminate|]]]]]].
    { destruct HP as [_ [->|(src & -> & H)]]; [apply wr_render with (f := true); [exact Hepp|reflexivity|constructor]|]. apply wr_render with (f := false); [exact Hepp|reflexivity|].
      rewrite <- (app_nil_r (encode src)). apply (@lead_close true (lit "%>") src []); [left; reflexivity| | |constructor]; cbn [app].
      - exists []. split; [exact H|]. right. split; [intros (s & X); discriminate X|reflexivity].
      - right. eexists. split; [reflexivity|]. right. eexists _, _. split; [reflexivity|]. repeat split; try lia; discriminate. }
    apply ok_stream_app; [discriminate|exact HO|apply toks_some| |].
    + destruct (p_out p) as [|r l] eqn:E; [rewrite (ptoks_render o HF); eexists; reflexivity|]. unfold render. cbn [flat_map k_gap app]. eexists; reflexivity.
    + intros p2 p' Hp'. destruct (p_out p) as [|r l] eqn:E.
      * apply HN; [|exact Hp']. split; [apply gap_space|]. right. exists (p_src p). auto.
      * cbn [stream k_tok k_gap k_brk k_val k_txt k_radix embedded top].
        split; [apply wr_text; [exact Hepp|reflexivity|vm_compute; tauto]|]. split; [left; apply gap_space|]. split; [exact Logic.I|]. split; [intros []|]. split; [|split; [discriminate|]].
        -- intros _. exists false, [], (lit "%>"), (p_src p), (r :: l). rewrite (ptoks_render o HF). cbn [app]. split; [reflexivity|]. split; [constructor|]. split; [left; reflexivity|]. split; [apply parts_said; exact HT|]. split; [apply parts_tag|]. split; [discriminate|reflexivity].
        -- apply HN; [split; [constructor|left; reflexivity]|discriminate].
Qed.
Lemma ptoks_code ps : Forall proper ps -> forall g pre, exists ts k, ptoks g pre ps = ts ++ [k] /\ k_tok k = TEnd /\ code o ts (flat_map part_shown ps)
  /\ (forall k' l, ts = k' :: l -> k_tok k' = TRenderExpr).
Proof.
  induction 1 as [|p ps [HL HT] HF IH]; intros g pre.
  - exists [], (mktk g false TEnd VNil 0 pre). split; [reflexivity|]. split; [reflexivity|]. split; [constructor|discriminate].
  - assert (A : forall ts, (forall k' l, ts = k' :: l -> In (k_tok k') [TRenderExpr; TRenderString]) -> apart 12 ts).
    { intros [|k' l] H; [exact Logic.I|]. specialize (H k' l eq_refl). cbn [In] in H. cbn [apart]. destruct H as [<-|[<-|[]]]; exact Logic.I. }
    set (k0 := mktk g false TRenderExpr VNil 0 (pre ++ lit "<%=")).
    assert (R : D (o_workflow o) [] Expression (k0 :: toks (p_expr p) false) [EUn z KRender (shown (p_expr p))]) by (apply x_render; [reflexivity|apply ops_expression; exact HL]).
    cbn [ptoks flat_map]. unfold part_shown at 1. fold k0. destruct (p_out p) as [|r l] eqn:E; cbn [text_tree app].
    + destruct (IH [32] (lit "%>" ++ encode (p_src p))) as (ts & k & E1 & E2 & E3 & E4). exists ((k0 :: toks (p_expr p) false) ++ ts), k. rewrite E1. split; [cbn [app]; now rewrite app_assoc|]. split; [exact E2|].
      split; [apply code_more; [exact R|exact E3|apply A; intros k' l' X; left; symmetry; exact (E4 _ _ X)]|]. intros k' l' X. injection X as <- _. reflexivity.
    + destruct (IH [] []) as (ts & k & E1 & E2 & E3 & E4). set (kt := mktk [32] false TRenderString (VStr (encode (r :: l))) 0 (lit "%>" ++ encode (p_src p))).
      exists ((k0 :: toks (p_expr p) false) ++ [kt] ++ ts), k. rewrite E1. split; [cbn [app]; now rewrite <- app_assoc|]. split; [exact E2|].
      split; [|intros k' l' X; injection X as <- _; reflexivity].
      apply code_more; [exact R| |apply A; intros k' l' X; right; left; injection X as <- _; reflexivity].
      apply code_more; [|exact E3|apply A; intros k' l' X; left; symmetry; exact (E4 _ _ X)].
      apply x_select, s_op, atom_op; [apply a_text; reflexivity|reflexivity|lia].
Qed.
End Parts.
Lemma shown_statements ps : statements (flat_map part_shown ps) (flat_map part_shown ps).
Proof.
  induction ps as [|p ps IH]; [constructor|]. cbn [flat_map]. unfold part_shown at 1 3. cbn [app].
  apply sts_other with (e := EUn z KRender (shown (p_expr p))); [intros (? & X & _); discriminate X|intros []|].
  destruct (p_out p) as [|r l]; [exact IH|]. cbn [text_tree app]. apply sts_other with (e := ERenderString z (encode (r :: l))); [intros (? & X & _); discriminate X|intros []|exact IH].
Qed.
(** In particular: for all texts and all operator expressions between them in
    [<%=] and [%>], the template renders exactly these texts (those that say
    something) and the values of these expressions, in this order. *)
Theorem C50_texts_and_values : forall o single src out ps,
  templates o -> tame src -> epp_text src out -> Forall proper ps -> ps <> [] ->
  exists r, parses o (encode src ++ flat_map part_text ps) single (rendering single [] r)
    /\ map unparen r = text_tree out ++ flat_map part_tree ps.
Proof.
  intros o single src out ps HO HT HE HF Hne. exists (text_tree out ++ flat_map part_shown ps). split.
  - apply C50_templates; [exact HO|]. destruct (@ptoks_code o (proj1 HO) ps HF [] []) as (ts & k & E1 & E2 & E3 & E4).
    pose proof (@ptoks_render o ps HF [] []) as ER. cbn [app] in ER. rewrite E1 in ER. pose proof (@ptoks_stream o (proj1 HO) ps HF [] [] (Some TRenderString) TRenderString (conj gap_nil (or_introl eq_refl))) as ES. rewrite E1 in ES.
    rewrite <- ER. eapply (@template_code o 0 src out [] ts k); cbn [app]; try rewrite ER.
    + exact HT.
    + apply parts_said; exact HE.
    + apply parts_tag.
    + left; reflexivity.
    + exact ES.
    + exact E2.
    + intros k' l X Y. rewrite (E4 _ _ X) in Y. discriminate Y.
    + exact E3.
    + pose proof (shown_statements ps) as X. unfold contents. destruct out as [|r l].
      * destruct (flat_map part_shown ps) eqn:Z; [|exact X]. destruct ps; [congruence|discriminate Z].
      * cbn [text_tree app]. apply sts_other with (e := ERenderString z (encode (r :: l))); [intros (? & Y & _); discriminate Y|intros []|exact X].
  - assert (X : forall out, map unparen (text_tree out) = text_tree out) by (intros [|? ?]; reflexivity).
    rewrite map_app, X. f_equal. clear HF Hne. induction ps as [|p ps IH]; [reflexivity|]. cbn [flat_map]. rewrite map_app, IH. f_equal. unfold part_shown, part_tree. cbn [map unparen]. rewrite X, unparen_shown. reflexivity.
Qed.
(** the same after parameters *)
Fixpoint name_toks (names : list str) : list tk :=
  match names with
  | [] => []
  | [w] => [mktk [32] false TVariable (VStr w) 0 ("$"%ch :: w)]
  | w :: names' => mktk [32] false TVariable (VStr w) 0 ("$"%ch :: w) :: mktk [] false TComma VNil 0 (lit ",") :: name_toks names'
  end.
Lemma name_cons w w2 names : name_toks (w :: w2 :: names) = mktk [32] false TVariable (VStr w) 0 ("$"%ch :: w) :: mktk [] false TComma VNil 0 (lit ",") :: name_toks (w2 :: names).
Proof. reflexivity. Qed.
Lemma names_render names : render (name_toks names) = parameters_text names.
Proof.
  unfold parameters_text. induction names as [|w [|w2 names] IH]; [reflexivity|unfold render; cbn; rewrite app_nil_r; reflexivity|].
  rewrite name_cons. unfold render in *. cbn [flat_map k_gap k_txt]. rewrite IH. cbn [map]. unfold join; fold join. cbn [app]. reflexivity.
Qed.
Lemma names_list wf names : D wf [] (ListOf Param) (name_toks names) (map parameter names).
Proof.
  assert (X : forall w, D wf [] Param [mktk [32] false TVariable (VStr w) 0 ("$"%ch :: w)] [parameter w]).
  { intros w. apply (@param_plain _ [] [] [] [] (mktk [32] false TVariable (VStr w) 0 ("$"%ch :: w)) w [] []); try constructor; reflexivity. }
  induction names as [|w [|w2 names] IH]; [constructor|apply l_one, X|]. rewrite name_cons. cbn [map].
  apply (@l_more _ [] Param [mktk [32] false TVariable (VStr w) 0 ("$"%ch :: w)]); [apply X|reflexivity|exact IH].
Qed.
Lemma name_quiet w s : qualified lower w -> one_of (first_byte s) ", " -> ~ clash TVariable ("$"%ch :: w) s.
Proof.
  intros Hw Hs. assert (Hd : ~ double_colon s) by (intros (x & ->); vm_compute in Hs; intuition discriminate).
  unfold clash. cbn [skipn]. assert (E : isDecimalDigit (first_byte w) = false). { destruct Hw as [h t H _|h t rest H _ _]; cbn [first_byte]; unfold lower in H; unfold isDecimalDigit; apply Bool.andb_false_iff; right; apply Z.leb_gt; change ("9"%ch) with 57; lia. }
  rewrite E. unfold wordchar, lower, upper, digit. destruct Hs as [<-|[<-|[]]]; vm_compute; intuition (try discriminate; try lia).
Qed.
Lemma names_stream o names rest : Forall (qualified lower) names -> (exists s, render rest = 32 :: s) -> (forall p2 p, p <> None -> stream o (top o 0) p2 p rest) ->
  forall p2 p, p <> None -> stream o (top o 0) p2 p (name_toks names ++ rest).
Proof.
  intros HF (s & Hs) HR. induction HF as [|w names Hw HF IH]; intros p2 p Hp; [apply HR; exact Hp|].
  assert (V : forall rest', (exists s', render rest' = 32 :: s' \/ render rest' = ","%ch :: s') -> stream o (top o 0) p (Some TVariable) rest' -> stream o (top o 0) p2 p (mktk [32] false TVariable (VStr w) 0 ("$"%ch :: w) :: rest')).
  { intros rest' (s' & Hs') HR'. cbn [stream k_tok k_gap k_brk k_val k_txt k_radix embedded top]. split; [apply wr_token; [apply tt_var; exact Hw|discriminate]|]. split; [left; apply gap_space|]. split; [exact Logic.I|].
    split; [apply name_quiet; [exact Hw|destruct Hs' as [-> | ->]; vm_compute; tauto]|]. split; [discriminate|]. split; [discriminate|exact HR']. }
  destruct names as [|w2 names]; [cbn [name_toks app]; apply V; [eauto|apply HR; discriminate]|].
  rewrite name_cons. cbn [app]. apply V; [unfold render; cbn [flat_map k_gap k_txt app]; eexists; right; reflexivity|].
  cbn [stream k_tok k_gap k_brk k_val k_txt k_radix embedded top]. split; [apply wr_token; [apply (tt_punct o); vm_compute; tauto|discriminate]|]. split; [left; constructor|]. split; [exact Logic.I|]. split; [intros []|]. split; [discriminate|]. split; [discriminate|]. apply IH. discriminate.
Qed.
(** the code of a template is also a list of statements *)
Lemma x_stmt wf ts e : D wf [] Expression ts [e] -> (wf = true -> ~ style_name e) -> D wf [] Stmt ts [e].
Proof. intros H HN. apply st_rel, rel_assign, as_resource, r_expression; [exact H|exact HN]. Qed.
Lemma ptoks_stmts wf ps : Forall proper ps -> forall g pre ts k, ptoks g pre ps = ts ++ [k] -> D wf [] Stmts ts (flat_map part_shown ps).
Proof.
  induction 1 as [|p ps [HL HT] HF IH]; intros g pre ts k E.
  - cbn [ptoks] in E. change ([mktk g false TEnd VNil 0 pre]) with ([] ++ [mktk g false TEnd VNil 0 pre]) in E. apply app_inj_tail in E. destruct E as [<- _]. constructor.
  - assert (L : forall g pre, exists ts0 k0, ptoks g pre ps = ts0 ++ [k0]) by (intros; destruct (exists_last (l := ptoks g0 pre0 ps)) as (x & y & Y); [destruct ps; discriminate|eauto]).
    assert (A : forall g pre ts0 k0, ptoks g pre ps = ts0 ++ [k0] -> apart 16 ts0).
    { intros g0 pre0 ts0 k0 Y. destruct ps as [|p1 ps1]; cbn [ptoks] in Y; destruct ts0 as [|k1 ts0]; try exact Logic.I; cbn [app] in Y; injection Y as <- Y; [destruct ts0; discriminate|exact Logic.I]. }
    set (k0 := mktk g false TRenderExpr VNil 0 (pre ++ lit "<%=")).
    assert (R : D wf [] Stmt (k0 :: toks (p_expr p) false) [EUn z KRender (shown (p_expr p))]) by (apply x_stmt; [|no_name]; apply x_render; [reflexivity|apply ops_expression; exact HL]).
    cbn [ptoks flat_map] in E |- *. unfold part_shown at 1. fold k0 in E. destruct (p_out p) as [|r l] eqn:Eo; cbn [text_tree app].
    + destruct (L [32] (lit "%>" ++ encode (p_src p))) as (ts0 & k' & Y). rewrite Y in E. change (k0 :: toks (p_expr p) false ++ ts0 ++ [k']) with ((k0 :: toks (p_expr p) false) ++ ts0 ++ [k']) in E. rewrite app_assoc in E. apply app_inj_tail in E. destruct E as [<- _].
      apply sts_next; [exact R|eapply IH; exact Y|eapply A; exact Y].
    + destruct (L [] []) as (ts0 & k' & Y). rewrite Y in E. set (kt := mktk [32] false TRenderString (VStr (encode (r :: l))) 0 (lit "%>" ++ encode (p_src p))) in *.
      change (k0 :: toks (p_expr p) false ++ kt :: ts0 ++ [k']) with ((k0 :: toks (p_expr p) false) ++ (kt :: ts0) ++ [k']) in E. rewrite app_assoc in E. apply app_inj_tail in E. destruct E as [<- _].
      apply sts_next; [exact R| |exact Logic.I]. apply (@sts_next _ [] [kt]); [|eapply IH; exact Y|eapply A; exact Y]. apply x_stmt; [|no_name]; apply x_select, s_op, atom_op; [apply a_text; reflexivity|reflexivity|lia].
Qed.
Theorem C50_parameters : forall o single names src out ps,
  templates o -> Forall (qualified lower) names -> epp_text src out -> Forall proper ps ->
  exists r, parses o (lit "<%|" ++ parameters_text names ++ lit " |%>" ++ encode src ++ flat_map part_text ps) single (rendering single (map parameter names) r)
    /\ map unparen r = text_tree out ++ flat_map part_tree ps.
Proof.
  intros o single names src out ps HO HN HE HF. exists (text_tree out ++ flat_map part_shown ps). split.
  2: { assert (X : forall out, map unparen (text_tree out) = text_tree out) by (intros [|? ?]; reflexivity).
    rewrite map_app, X. f_equal. clear HF. induction ps as [|p ps IH]; [reflexivity|]. cbn [flat_map]. rewrite map_app, IH. f_equal. unfold part_shown, part_tree. cbn [map unparen]. rewrite X, unparen_shown. reflexivity. }
  apply C50_templates; [exact HO|].
  set (k1 := mktk [] false TPipe VNil 0 (lit "|")). set (k2 := mktk [32] false TPipeEnd VNil 0 (lit "|")).
  (* the text after the parameters *)
  set (kt := mktk [] false TRenderString (VStr (encode out)) 0 (lit "%>" ++ encode src)).
  assert (X : exists ts2 k, k_tok k = TEnd /\ D (o_workflow o) [] Stmts ts2 (text_tree out ++ flat_map part_shown ps) /\ render (ts2 ++ [k]) = lit "%>" ++ encode src ++ flat_map part_text ps
     /\ (forall p2 p, p <> None -> stream o (top o 0) p2 p (ts2 ++ [k])) /\ look (ts2 ++ [k]) = "%"%ch /\ (forall k' l, ts2 = k' :: l -> k_tok k' <> TLc)).
  { destruct out as [|r l].
    - destruct (@ptoks_code o (proj1 HO) ps HF [] (lit "%>" ++ encode src)) as (ts & k & E1 & E2 & E3 & E4). exists ts, k. split; [exact E2|]. split; [exact (ptoks_stmts _ HF E1)|].
      pose proof (@ptoks_render o ps HF [] (lit "%>" ++ encode src)) as ER. rewrite E1 in ER. split; [exact ER|]. split; [|split].
      + intros p2 [p|] Hp; [|congruence]. rewrite <- E1. apply ptoks_stream; [apply HO|exact HF|]. split; [constructor|]. right. exists src. auto.
      + rewrite <- E1. destruct ps; reflexivity.
      + intros k' l Y Z. rewrite (E4 _ _ Y) in Z. discriminate Z.
    - destruct (@ptoks_code o (proj1 HO) ps HF [] []) as (ts & k & E1 & E2 & E3 & E4). exists (kt :: ts), k. split; [exact E2|]. split.
      { apply (@sts_next _ [] [kt]); [apply x_stmt; [|no_name]; apply x_select, s_op, atom_op; [apply a_text; reflexivity|reflexivity|lia]|exact (ptoks_stmts _ HF E1)|]. destruct ts as [|k' ts]; [exact Logic.I|]. cbn [apart]. rewrite (E4 _ _ eq_refl). exact Logic.I. }
      pose proof (@ptoks_render o ps HF [] []) as ER. rewrite E1 in ER. cbn [app] in ER. split; [|split; [|split]].
      + unfold render in *. cbn [app flat_map kt k_gap k_txt]. rewrite ER. reflexivity.
      + intros p2 p Hp. cbn [app stream kt k_tok k_gap k_brk k_val k_txt k_radix embedded top].
        split; [apply wr_text; [apply HO|reflexivity|vm_compute; tauto]|]. split; [left; constructor|]. split; [exact Logic.I|]. split; [intros []|]. split; [|split; [discriminate|]].
        * intros _. exists false, [], (lit "%>"), src, (r :: l). rewrite ER. cbn [app]. split; [reflexivity|]. split; [constructor|]. split; [left; reflexivity|]. split; [apply parts_said; exact HE|]. split; [apply parts_tag|]. split; [discriminate|reflexivity].
        * rewrite <- E1. apply ptoks_stream; [apply HO|exact HF|]. split; [constructor|left; reflexivity].
      + reflexivity.
      + intros k' l' Y. injection Y as <- _. discriminate. }
  destruct X as (ts2 & k & E1 & E2 & E3 & E4 & E5 & E6).
  assert (ER : lit "<%|" ++ parameters_text names ++ lit " |%>" ++ encode src ++ flat_map part_text ps = encode [] ++ lit "<%" ++ render (k1 :: name_toks names ++ k2 :: ts2 ++ [k])).
  { change (k1 :: name_toks names ++ k2 :: ts2 ++ [k]) with ([k1] ++ name_toks names ++ [k2] ++ ts2 ++ [k]). rewrite !render_app, names_render. rewrite render_app in E3. rewrite E3. reflexivity. }
  rewrite ER. apply template_parameters with (n := O%nat) (es := text_tree out ++ flat_map part_shown ps).
  - exists []. split; [constructor|left; reflexivity].
  - exists []. split; [constructor|]. right. split; [intros (s & Y); discriminate Y|reflexivity].
  - right. eexists. split; [reflexivity|]. right. eexists _, _. split; [reflexivity|]. repeat split; try lia; discriminate.
  - right. right. split; [reflexivity|]. vm_compute. intuition discriminate.
  - assert (S2 : forall p2 p, p <> None -> stream o (top o 0) p2 p (k2 :: ts2 ++ [k])).
    { intros p2 p Hp. cbn [stream k2 k_tok k_gap k_brk k_val k_txt k_radix embedded top]. split; [apply wr_token; [apply (tt_punct o); vm_compute; tauto|discriminate]|]. split; [left; apply gap_space|].
      split; [cbn [situated]; right; right; split; [apply HO|rewrite E5; vm_compute; tauto]|]. rewrite E3. split; [vm_compute; intuition discriminate|]. split; [discriminate|]. split; [discriminate|]. apply E4. discriminate. }
    assert (L : look (name_toks names ++ k2 :: ts2 ++ [k]) = "$"%ch \/ names = []). { destruct names as [|w [|w2 names]]; auto. }
    cbn [stream k1 k_tok k_gap k_brk k_val k_txt k_radix embedded top]. split; [apply wr_token; [apply (tt_punct o); vm_compute; tauto|discriminate]|]. split; [left; constructor|].
    split; [cbn [situated]; split; [discriminate|]|].
    { destruct L as [L| ->]; [rewrite L; vm_compute; intuition discriminate|]. vm_compute. intuition discriminate. }
    split; [|split; [discriminate|split; [discriminate|]]].
    + destruct names as [|w [|w2 names]]; vm_compute; intuition discriminate.
    + apply names_stream; [exact HN|unfold render; cbn [flat_map k2 k_gap app]; eauto|exact S2|discriminate].
  - exact E1.
  - reflexivity.
  - apply names_list.
  - reflexivity.
  - exact E2.
  - pose proof (shown_statements ps) as Y. destruct out as [|r l]; [exact Y|]. cbn [text_tree app]. apply sts_other with (e := ERenderString z (encode (r :: l))); [intros (? & W & _); discriminate W|intros []|exact Y].
  - exact E6.
Qed.

(** ** Cases *)
Definition epp : opts := mkopts true false false false false true (fun _ => false).
Definition case_parts : list part :=
  [mkpart (OVar (lit "name")) (lit ", you owe ") (lit ", you owe ");
   mkpart (OBin 3 "*" KArithmetic (OBin 4 "+" KArithmetic (OVar (lit "a")) (OInt 1)) (OInt 2)) (lit "<%# dollars %>") [];
   mkpart (OVar (lit "b")) (lit " 100%%> <%% ") (lit " 100%> <% ")].
Example C50_case : templates epp /\ tame (lit "Dear ") /\ epp_text (lit "Dear ") (lit "Dear ") /\ Forall proper case_parts
  /\ lit "Dear " ++ flat_map part_text case_parts = lit "Dear <%= $name %>, you owe <%= ( $a + 1 ) * 2 %><%# dollars %><%= $b %> 100%%> <%% ".
Proof.
  split; [repeat split|]. split; [exists []; split; [constructor|]; right; eexists _, _; split; [reflexivity|]; cbn; intuition discriminate|].
  Ltac et := first [ apply et_nil | apply et_open | apply et_close
    | apply (@et_comment [32; 100; 111; 108; 108; 97; 114; 115; 32]); [cbn [comment]; repeat (split; [apply LexStrings.rune_ok_ascii; lia|split; [intros (X & _); discriminate X|]]); discriminate|]
    | apply et_rune; [apply LexStrings.rune_ok_ascii; lia|intros (s & X); discriminate X|intros (s & X); discriminate X|]].
  assert (Q : forall w, w <> [] -> Forall (fun c => 97 <= c <= 122) w -> qualified lower w).
  { intros [|c w] Hw H; [congruence|]. inversion H; subst. apply q_one; [unfold lower; cbn; lia|]. eapply Forall_impl; [|eassumption]. intros a Ha. cbv beta in Ha. unfold wordchar, lower. change ("a"%ch) with 97. change ("z"%ch) with 122. tauto. }
  split; [cbn; repeat et|]. split; [|vm_compute; reflexivity].
  unfold case_parts. repeat apply Forall_cons; [split|split|split|constructor]; cbn [p_expr p_src p_out]; try (cbn; repeat et).
  - apply Q; [discriminate|repeat constructor; cbn; lia].
  - cbn [legal]. split; [unfold binary_operators; cbn [In]; repeat (first [left; reflexivity|right])|].
    split; [|lia]. split; [unfold binary_operators; cbn [In]; repeat (first [left; reflexivity|right])|]. split; [apply Q; [discriminate|repeat constructor; cbn; lia]|lia].
  - apply Q; [discriminate|repeat constructor; cbn; lia].
Qed.
Example C50_case_run : exists e, parse conf_fuel epp (lit "Dear " ++ flat_map part_text case_parts) true = POk e
  /\ strip e = template_tree [] [ERenderString z (lit "Dear "); EUn z KRender (EUn z KVariable (EQName z (lit "name"))); ERenderString z (lit ", you owe ");
    EUn z KRender (EBin z KArithmetic (lit "*") (EUn z KParen (EBin z KArithmetic (lit "+") (EUn z KVariable (EQName z (lit "a"))) (EInt z 10 1))) (EInt z 10 2));
    EUn z KRender (EUn z KVariable (EQName z (lit "b"))); ERenderString z (lit " 100%> <% ")].
Proof. eexists. split; vm_compute; reflexivity. Qed.
Example C50_parameters_case : Forall (qualified lower) [lit "name"; lit "a"; lit "b"]
  /\ lit "<%|" ++ parameters_text [lit "name"; lit "a"; lit "b"] ++ lit " |%>" ++ lit "Dear " ++ flat_map part_text case_parts
    = lit "<%| $name, $a, $b |%>Dear <%= $name %>, you owe <%= ( $a + 1 ) * 2 %><%# dollars %><%= $b %> 100%%> <%% ".
Proof.
  split; [|vm_compute; reflexivity]. repeat constructor; unfold lower, wordchar, lower, upper, digit; cbn; lia.
Qed.
Example C50_parameters_run : exists e, parse conf_fuel epp (lit "<%| $name |%><%= $name %>x") true = POk e
  /\ strip e = template_tree [parameter (lit "name")] [EUn z KRender (EUn z KVariable (EQName z (lit "name"))); ERenderString z (lit "x")].
Proof. eexists. split; vm_compute; reflexivity. Qed.
(** code around text *)
Definition if_toks : list tk := [
  mktk [32] false TIf (VStr (lit "if")) 0 (lit "if"); mktk [32] false TVariable (VStr (lit "x")) 0 (lit "$x"); mktk [32] false TLc VNil 0 (lit "{");
  mktk [32] false TRenderString (VStr (lit "yes")) 0 (lit "-%>" ++ [32; 10] ++ lit "yes  "); mktk [] false TRc VNil 0 (lit "<%- }"); mktk [32] false TRenderString (VStr (lit "!")) 0 (lit "%>!")].
Definition if_end : tk := mktk [] false TEnd VNil 0 [].
Example C50_if_case : exists r, SpecEpp.template epp (lit "a <% if $x { -%> " ++ [10] ++ lit "yes  <%- } %>!") [] r
  /\ r = [ERenderString z (lit "a "); EIf z false (EUn z KVariable (EQName z (lit "x"))) (EBlock z [ERenderString z (lit "yes")]) (ENop z); ERenderString z (lit "!")].
Proof.
  eexists. split; [|reflexivity].
  change (lit "a <% if $x { -%> " ++ [10] ++ lit "yes  <%- } %>!") with (encode (lit "a ") ++ lit "<%" ++ render (if_toks ++ [if_end])).
  assert (HE : epp_text (lit "a ") (lit "a ")) by (cbn; repeat et). assert (HY : epp_text (lit "yes  ") (lit "yes  ")) by (cbn; repeat et). assert (HB : epp_text (lit "!") (lit "!")) by (cbn; repeat et).
  apply (@template_code epp 0 (lit "a ") (lit "a ") (lit "<%") if_toks if_end [EIf z false (EUn z KVariable (EQName z (lit "x"))) (EBlock z [ERenderString z (lit "yes")]) (ENop z); ERenderString z (lit "!")]).
  - exists []. split; [constructor|]. right. eexists _, _. split; [reflexivity|]. cbn. intuition discriminate.
  - exists (lit "a "). split; [exact HE|]. right. split; [intros (s & X); discriminate X|reflexivity].
  - right. eexists. split; [reflexivity|]. right. eexists _, _. split; [reflexivity|]. repeat split; try (cbn; lia); discriminate.
  - right. right. split; [reflexivity|]. vm_compute. intuition discriminate.
  - unfold if_toks, if_end. cbn [app stream k_tok k_gap k_brk k_val k_txt k_radix embedded top].
    split; [apply wr_token; [apply (tt_reserved epp); vm_compute; tauto|discriminate]|]. split; [left; apply gap_space|]. split; [exact Logic.I|]. split; [vm_compute; intuition (try discriminate; try lia); match goal with H : exists _, _ |- _ => destruct H; discriminate end|]. split; [discriminate|]. split; [discriminate|].
    split; [apply wr_token; [apply (tt_var epp); apply q_one; [unfold lower; cbn; lia|constructor]|discriminate]|]. split; [left; apply gap_space|]. split; [exact Logic.I|]. split; [vm_compute; intuition (try discriminate; try lia); match goal with H : exists _, _ |- _ => destruct H; discriminate end|]. split; [discriminate|]. split; [discriminate|].
    split; [apply wr_token; [apply (tt_punct epp); vm_compute; tauto|discriminate]|]. split; [left; apply gap_space|]. split; [discriminate|]. split; [intros []|]. split; [discriminate|]. split; [discriminate|].
    split; [apply wr_text; [reflexivity|reflexivity|vm_compute; tauto]|]. split; [left; apply gap_space|]. split; [exact Logic.I|]. split; [intros []|]. split; [|split; [discriminate|]].
    { intros _. exists false, [], (lit "-%>" ++ [32; 10]), (lit "yes  "), (lit "yes"). split; [reflexivity|]. split; [constructor|]. split; [right; exists [32]; split; [repeat constructor|left; reflexivity]|].
      split; [|split; [|split; [discriminate|reflexivity]]].
      - exists (lit "yes  "). split; [exact HY|]. left. split; [eexists; reflexivity|]. exists [32; 32]. split; [reflexivity|]. split; [repeat constructor|]. intros x c X. apply (f_equal (@rev Z)) in X. rewrite rev_app_distr in X. cbn in X. injection X as X _. subst c. split; discriminate.
      - right. eexists. split; [reflexivity|]. right. eexists _, _. split; [reflexivity|]. repeat split; try (cbn; lia); discriminate. }
    split; [apply (@wr_tagged epp (top epp 0) TRc VNil 0 true (lit "<%- ") (lit "}")); [reflexivity|reflexivity|discriminate| |apply (tt_punct epp); vm_compute; tauto|split; [vm_compute; intuition discriminate|discriminate]]|].
    { apply (@lead_open false ["-"%ch] false [32] []); [left; reflexivity|apply gap_space|constructor]. }
    split; [left; constructor|]. split; [exact Logic.I|]. split; [intros []|]. split; [discriminate|]. split; [discriminate|].
    split; [apply wr_text; [reflexivity|reflexivity|vm_compute; tauto]|]. split; [left; apply gap_space|]. split; [exact Logic.I|]. split; [intros []|]. split; [|split; [discriminate|]].
    { intros _. exists false, [], (lit "%>"), (lit "!"), (lit "!"). split; [reflexivity|]. split; [constructor|]. split; [left; reflexivity|].
      split; [|split; [left; reflexivity|split; [discriminate|reflexivity]]]. exists (lit "!"). split; [exact HB|]. right. split; [intros (s & X); discriminate X|reflexivity]. }
    split; [apply wr_token; [constructor|reflexivity]|]. split; [left; constructor|]. split; [exact Logic.I|]. split; [intros []|]. split; [discriminate|auto].
  - reflexivity.
  - intros k' l X. injection X as <- _. discriminate.
  - unfold if_toks. 
    match goal with |- code _ [?k1; ?k2; ?k3; ?k4; ?k5; ?k6] _ => apply (@code_more _ [k1; k2; k3; k4; k5] _ [k6]); [|apply (@code_more _ [k6] _ []); [|constructor|exact Logic.I]|exact Logic.I] end.
    + apply x_select, s_op, atom_op; [|reflexivity|lia]. apply a_if; [reflexivity|].
      match goal with |- D _ _ _ (?k1 :: ?l) _ => change l with ([mktk [32] false TVariable (VStr (lit "x")) 0 (lit "$x")] ++
        (mktk [32] false TLc VNil 0 (lit "{") :: [mktk [32] false TRenderString (VStr (lit "yes")) 0 (lit "-%>" ++ [32; 10] ++ lit "yes  ")] ++ [mktk [] false TRc VNil 0 (lit "<%- }")]) ++ []) end.
      apply if_then; [apply atom_op; [apply a_var; reflexivity|reflexivity|lia]| |constructor].
      apply b_braces with (es := [ERenderString z (lit "yes")]); [reflexivity| | |reflexivity].
      * apply (@sts_next _ [] [mktk [32] false TRenderString (VStr (lit "yes")) 0 (lit "-%>" ++ [32; 10] ++ lit "yes  ")] _ []); [|constructor|exact Logic.I]. apply x_stmt; [|no_name]; apply x_select, s_op, atom_op; [apply a_text; reflexivity|reflexivity|lia].
      * apply sts_other with (e := ERenderString z (lit "yes")); [intros (? & X & _); discriminate X|intros []|constructor].
    + apply x_select, s_op, atom_op; [apply a_text; reflexivity|reflexivity|lia].
  - assert (X : forall e, match e with EIf _ _ _ _ _ | ERenderString _ _ => True | _ => False end -> forall l r, statements l r -> statements (e :: l) (used false e :: r)).
    { intros e He l r Hl. apply sts_other; [intros (n & -> & _); destruct He|intros H; destruct e; contradiction|exact Hl]. }
    apply (X (ERenderString z (lit "a "))); [exact Logic.I|]. apply (X (EIf z _ _ _ _)); [exact Logic.I|]. apply (X (ERenderString z (lit "!"))); [exact Logic.I|constructor].
Qed.
Print Assumptions C50_templates.
Print Assumptions C50_one_reading.
Print Assumptions C50_texts_and_values.
Print Assumptions C50_parameters.
