(** * GrammarEpp: Parse of templates *)
From Verif Require Import Base Float Tokens Ast Ctx Locator Lexer Parser Api Utf8Facts SpecReader LexBase GapProof SpecLex LexStrings LexStream LexPunct EppProof LexCur Evals Ends SpecGrammar SpecManifest SpecEpp GrammarBase GrammarFirst GrammarTree GrammarSem GrammarExprs GrammarStmts GrammarLists GrammarMain SpliceProof FuelMono.
From Coq Require Import Lia.

(** the line of the first tag *)
Lemma blanks_gap b : blanks b -> gap false b /\ encode b = b.
Proof.
  induction 1 as [|r b H _ [IH1 IH2]]; [split; [constructor|reflexivity]|]. split; [apply gap_blank; [unfold blank; tauto|exact IH1]|].
  rewrite encode_cons, ascii_width by lia. cbn [app]. now rewrite IH2.
Qed.
Lemma tame_line src out s c : tame src -> said src s out -> tag_or_end s -> s <> [] -> c_text c = encode src ++ s -> c_bol c = 0 -> exists q, line c q /\ q <= zlen (encode src).
Proof.
  intros (b & Hb & HS) (out0 & HT & _) Hs Hne Htx Hbol. destruct (blanks_gap Hb) as [HG HE]. pose proof (proj1 (text_ok HT)) as HF.
  assert (Hsr : encode src = b ++ encode (skipn (List.length b) src)).
  { destruct HS as [->|(r & src' & -> & _)]; [rewrite skipn_all, app_nil_r; exact HE|]. rewrite encode_app, HE, skipn_app, skipn_all, Nat.sub_diag. reflexivity. }
  exists (zlen b). split; [|rewrite Hsr, zlen_app; pose proof (zlen_nonneg (encode (skipn (List.length b) src))); lia].
  assert (HV : exists r w, visible (encode (skipn (List.length b) src) ++ s) r w).
  { destruct HS as [->|(r & src' & -> & Hr)].
    - rewrite skipn_all. cbn [app encode flat_map]. destruct Hs as [->|(s' & -> & _)]; [congruence|]. exists "<"%ch, 1. apply visible_solid; [reflexivity|]. repeat split; try discriminate. intros [X|[X|X]]; discriminate X.
    - rewrite skipn_app, skipn_all, Nat.sub_diag. cbn [app skipn]. apply Forall_app in HF. destruct HF as [_ HF]. inversion HF as [|? ? Hok _]; subst. destruct (Z.eq_dec r "*"%ch) as [->|Nr].
      + exists "*"%ch, 1. rewrite encode_cons, ascii_width by lia. apply visible_star.
      + exists r, (zlen (encode_rune r)). apply visible_solid; [apply head_more; exact Hok|]. cbn in Hr. unfold solid, blank. repeat split; try (intros ->; tauto); try exact Nr. intros [->|[->| ->]]; tauto. }
  destruct HV as (r & w & HV). exists [], b, (encode (skipn (List.length b) src) ++ s), r, w. split; [rewrite Htx, Hsr, <- app_assoc; reflexivity|]. split; [exact Hbol|]. split; [exact HG|]. split; [exact HV|reflexivity].
Qed.

Section Epp.
Variables (o : opts) (n0 : nat).
Local Notation m := (top o n0).
Hypothesis Htem : templates o.
Let Hepp : o_epp o = true := proj1 Htem.
Let Hfac : o_factory o = true := proj2 Htem.
Let Hm : lawful o m := @splices_lawful o n0 false Hfac.
Let Hqm : quoted m := lawful_quoted Hm.

Lemma bracket_text t v r x : t = TLp \/ t = TLb -> written o m t v r x -> x = lit "(" \/ x = lit "[".
Proof.
  intros Ht HW. destruct (@written_cases o m t v r x HW ltac:(destruct Ht; subst; discriminate)) as [HT|[(e & X & _)|(_ & _ & HT)]]; [|destruct Ht; congruence|].
  - destruct HT; try (destruct Ht; discriminate).
    + rewrite (punct_special H); [destruct Ht; subst; auto|destruct Ht; subst; reflexivity].
    + unfold reserved in H. cbn [In] in H. repeat (destruct H as [H|H]; [injection H as <- <-; destruct Ht; discriminate|]). destruct H.
    + destruct (o_tasks o), Ht; discriminate.
  - exfalso. destruct HT as [t v r f pre x _ _ _ [Hf _]| |]; [|destruct Ht; discriminate|destruct Ht; discriminate]. apply Hf. destruct Ht; subst; cbn; tauto.
Qed.
(** the first token *)
Lemma start_ok ks tag c q : stream o m (Some TRenderString) (Some TRenderString) ks -> opening tag (render ks) -> tag_or_end (tag ++ render ks) ->
  c_opts c = o -> c_nls c = -1 -> c_tok c = TRenderString -> at_ c (tag ++ render ks) -> (tag ++ render ks <> [] -> line c q /\ q <= c_pos c) ->
  exists c1, ev_next c c1 /\ curp o m (Some TRenderString) (c_names c) ks c1 /\ c_defs c1 = c_defs c /\ c_text c1 = c_text c.
Proof.
  intros HS Htag Hte Ho Hn Ht Hat HL. destruct ks as [|k rest]; [discriminate HS|].
  pose proof (stream_ascii Hqm HS) as HA. pose proof HS as HS0. apply stream_cons in HS0. destruct HS0 as (HT & HG & HSit & HC & HE & HS0).
  assert (Hls : k_tok k = TListstart -> k_gap k <> []). { intros E. rewrite E in HSit. cbn in HSit. destruct HSit as [X|(X & _)]; [discriminate|]. unfold glued in X. destruct (k_gap k); discriminate. }
  assert (Hlb : k_tok k = TLb -> k_gap k = []). { intros E. rewrite E in HSit. cbn in HSit. unfold glued in HSit. destruct (k_gap k); [reflexivity|destruct HSit; discriminate]. }
  pose proof (zlen_nonneg (k_gap k)) as Hgn. assert (Hcp : 0 <= c_pos c) by (destruct Hat as (pre & _ & ->); apply zlen_nonneg).
  assert (Htag' : tag = [] \/ exists dash, tag = "<"%ch :: "%"%ch :: dash /\ (dash = ["-"%ch] \/ dash = [] /\ ~ one_of (first_byte (render (k :: rest))) "%#=-")).
  { destruct Htag as [->|[->|[-> X]]]; [auto|right; exists ["-"%ch]; auto|right; exists []; auto]. }
  destruct Htag' as [->|(dash & -> & Hd)].
  - cbn [app] in *. 
    assert (Hno : k_gap k = [] -> k_tok k <> TLp /\ k_tok k <> TLb).
    { intros Eg. rewrite render_cons, Eg in Hte. cbn [app] in Hte. split; intros E; rewrite E in HT; apply bracket_text in HT; auto; destruct HT as [X|X]; rewrite X in Hte; destruct Hte as [Y|(s' & Y & _)]; discriminate. }
    rewrite render_cons in Hat, HL.
    destruct (@lex_step o m Hfac Hm (c_names c) (Some TRenderString) (Some TRenderString) k rest c (k_gap k) (k_brk k) Ho Hn eq_refl (or_introl Ht) HS Hat HG) as (c1 & E1 & E2 & E3 & E4 & _).
    + intros E. destruct (Hno (Hlb E)) as [_ X]. destruct (X E).
    + auto.
    + intros E. unfold lines. destruct (k_brk k) eqn:Eb; [left; auto|].
      destruct HL as [Hq Hle]. { intros X. apply app_eq_nil in X. destruct X as [_ X]. apply app_eq_nil in X. destruct X as [X _]. exact (E X). }
      assert (K : q < c_pos c + zlen (k_gap k) \/ q = c_pos c + zlen (k_gap k) /\ k_gap k = []).
      { destruct (k_gap k) as [|b0 g0]; [|left; rewrite zlen_cons in *; pose proof (zlen_nonneg g0); lia]. change (zlen (@nil Z)) with 0. destruct (Z.eq_dec q (c_pos c)); [right; split; [lia|reflexivity]|left; lia]. }
      destruct K as [K|[K Kg]].
      * left. right. right. split; [reflexivity|]. split; [exists q; auto|]. split; [reflexivity|discriminate].
      * right. split; [reflexivity|]. split; [rewrite <- K; exact Hq|]. exact (proj1 (Hno Kg)).
    + eauto.
  - assert (EE : ("<"%ch :: "%"%ch :: dash) ++ render (k :: rest) = [] ++ ("<"%ch :: "%"%ch :: dash) ++ render (k :: rest)) by reflexivity. destruct HL as [Hq Hle]; [discriminate|]. rewrite EE in Hat.
    assert (HV : visible (("<"%ch :: "%"%ch :: dash) ++ render (k :: rest)) (first_byte ("<"%ch :: "%"%ch :: dash)) 1) by (apply mark_visible; left; reflexivity).
    destruct (next_lex gap_nil Hat Hn HV) as (b & Hb & H0 & HN). cbn in Hb. subst b. set (c0 := token_at [] (c_bol c) c) in *.
    pose proof (at_fwd H0) as H2. rewrite render_cons in H2. set (c2 := fwd (zlen ("<"%ch :: "%"%ch :: dash)) c0) in *.
    assert (Hp2 : c_pos c < c_pos c2). { unfold c2, c0, token_at. cbn [fwd with_pos with_tsp with_bol c_pos]. rewrite !zlen_cons. pose proof (zlen_nonneg dash). change (zlen (@nil Z)) with 0. lia. }
    assert (Hq2 : line c2 q) by (eapply line_eq; [exact Hq|reflexivity|reflexivity]).
    destruct (@lex_step o m Hfac Hm (c_names c) (Some TRenderString) (Some TRenderString) k rest c2 (k_gap k) (k_brk k) Ho Hn eq_refl (or_introl Ht) HS H2 HG) as (c1 & E1 & E2 & E3 & E4 & _).
    + intros E. split; [exact (Hlb E)|lia].
    + auto.
    + intros E. left. unfold lines. destruct (k_brk k) eqn:Eb; [auto|]. right. right. split; [reflexivity|]. split; [exists q; split; [exact Hq2|lia]|]. split; [reflexivity|discriminate].
    + exists c1. split; [|auto]. apply HN. eapply (open_lex _ (s := render (k :: rest))); [exact Hd|left; exact HA|unfold c0, token_at; cbn [with_tsp with_bol fwd with_pos c_opts]; rewrite Ho; exact Hepp|exact H0|].
      unfold c2 in E1. rewrite !zlen_cons in E1. replace (1 + (1 + zlen dash)) with (2 + zlen dash) in E1 by lia. exact E1.
Qed.
Lemma code_first ts es : code o ts es -> ts = [] \/ ts <> [] /\ expr_start (tok_of ts) = true.
Proof.
  intros H. destruct H as [|ts e rest es H1 H2 H3]; [auto|]. right. destruct (firsts_one (D_firsts H1 Logic.I) eq_refl) as [Hne Hf]. split; [destruct ts; [congruence|discriminate]|]. rewrite (tok_of_app _ Hne). exact Hf.
Qed.
(** one expression after the other *)
Lemma code_ok ts es : code o ts es -> forall acc c0 ds c k r, st o m c0 ds [] (ts ++ [k]) c -> k_tok k = TEnd -> statements (map strip acc ++ es) r ->
  ends (fun r => r expr (FEppLoop acc)) c (fun e1 c1 => st o m c0 (ds ++ flat_map defs es) [] [k] c1 /\ strip e1 = template_tree [] r).
Proof.
  induction 1 as [|ts e rest es H1 H2 IH H3]; intros acc c0 ds c k r S Hk HSt.
  - cbn [app] in S. rewrite app_nil_r in HSt. apply ends_rec. cbn [body]. unfold eppLoop_body. apply (ends_cur S). cbn [tok_of]. rewrite Hk. cbn [shown embedded top]. change (tok_eqb TEnd TEnd) with true. cbv iota.
    destruct (transformCalls_ok c HSt eq_refl) as (out1 & E2 & E3). eapply ends_step; [exact E2|]. cbv beta. g1. unfold asEppLambda. g1. cbv iota. g1.
    split; [cbn [flat_map]; rewrite app_nil_r; exact S|]. cbn [strip eppLambda map option_map]. unfold template_tree. unfold eppLambda. cbn [strip map option_map]. rewrite E3. reflexivity.
  - rewrite <- app_assoc in S. destruct (firsts_one (D_firsts H1 Logic.I) eq_refl) as [Hne Hf]. apply ends_rec. cbn [body]. unfold eppLoop_body. apply (ends_cur S). rewrite (tok_of_app _ Hne).
    assert (HE : tok_eqb (shown m (tok_of ts)) TEnd = false). { cbn [first] in Hf. destruct (tok_of ts); try reflexivity; discriminate Hf. }
    rewrite HE. cbv iota. pose proof (@D_sem o m Hfac Hm [] Expression ts [e] H1 Logic.I) as HS1. cbn [sem] in HS1.
    assert (HA : apart 12 (rest ++ [k])). { destruct rest as [|k' rest]; [|exact H3]. cbn [app apart]. unfold stops. rewrite Hk. exact Logic.I. }
    apply ends_bind. eapply ends_imp; [eapply HS1; [reflexivity|exact S|exact HA]|]. intros e1 c1 (S1 & E1 & _).
    eapply ends_imp; [eapply (IH (acc ++ [e1])); [exact S1|exact Hk|]|].
    + rewrite map_app. cbn [map]. rewrite E1, <- app_assoc. exact HSt.
    + intros e2 c2 (S2 & E2). split; [cbn [flat_map]; rewrite app_assoc; exact S2|exact E2].
Qed.
(** the beginning of a template *)
Definition prologue (kk : recT -> str -> M expr) (r : recT) : M expr :=
  bind (consumeEPP r) (fun _ => bind curTok (fun cur => bind (if tok_eqb cur TRenderString then bind tokenString (fun s => bind (r unit FNextToken) (fun _ => ret s)) else ret []) (fun text => kk r text))).
Lemma prologue_ok kk src out tag ks (Q : expr -> ctx -> Prop) : tame src -> said src (tag ++ render ks) out -> tag_or_end (tag ++ render ks) -> opening tag (render ks) ->
  stream o m (Some TRenderString) (Some TRenderString) ks -> (tok_of ks = TRenderString -> out <> []) ->
  (forall c, curp o m (Some TRenderString) [] ks c -> c_defs c = [] -> ends (fun r => kk r (encode out)) c Q) ->
  ends (prologue kk) (start_ctx (encode src ++ tag ++ render ks) (createParser o)) Q.
Proof.
  intros Htm Hsd Hte Hop HS Hfst HK. set (s := tag ++ render ks) in *. set (c0 := start_ctx (encode src ++ s) (createParser o)).
  assert (H0 : at_ c0 (encode src ++ s)) by (exists []; split; reflexivity). pose proof (epp_ev Hsd Hte H0) as HE.
  set (c1 := fwd (zlen (encode src)) c0) in *.
  assert (H1 : at_ c1 s) by exact (at_fwd H0).
  assert (HL : exists q, s <> [] -> forall v, line (with_tok TRenderString v c1) q /\ q <= c_pos (with_tok TRenderString v c1)).
  { assert (Hd : s = [] \/ s <> []) by (destruct s; [left; reflexivity|right; discriminate]). destruct Hd as [Hd|Hd]; [exists 0; congruence|].
    destruct (@tame_line src out s c1 Htm Hsd Hte Hd eq_refl eq_refl) as (q & Hq & Hle). exists q. intros _ v. split; [eapply line_eq; [exact Hq|reflexivity|reflexivity]|]. cbn [with_tok c_pos]. unfold c1. cbn [fwd with_pos c_pos]. change (c_pos c0) with 0. lia. }
  destruct HL as (q & HL).
  assert (K : forall v, exists c2, ev_next (with_tok TRenderString v c1) c2 /\ curp o m (Some TRenderString) [] ks c2 /\ c_defs c2 = []).
  { intros v. destruct (@start_ok ks tag (with_tok TRenderString v c1) q HS Hop Hte eq_refl eq_refl eq_refl) as (c2 & A1 & A2 & A3 & A4); [eapply at_state; [exact H1|reflexivity|reflexivity]|intros X; apply HL; exact X|].
    exists c2. split; [exact A1|]. split; [exact A2|exact A3]. }
  unfold prologue. apply ends_bind.
  destruct (encode out) as [|b bs] eqn:Eo.
  - assert (out = []) as ->. { destruct out as [|r1 out1]; [reflexivity|]. rewrite encode_cons in Eo. apply app_eq_nil in Eo. destruct Eo as [Eo _]. destruct (@encode_rune_nonempty r1 Eo). }
    assert (Hd : s = [] \/ s <> []) by (destruct s; [left; reflexivity|right; discriminate]).
    assert (X : exists c2, evals (fun r => consumeEPP r) c0 tt c2 /\ curp o m (Some TRenderString) [] ks c2 /\ c_defs c2 = []).
    { destruct Hd as [Hd|Hd].
      - destruct ks as [|k rest]; [discriminate HS|]. pose proof HS as HS0. apply stream_cons in HS0. destruct HS0 as (HT & HG & HSit & HC & HEd & HS0).
        unfold s in Hd. apply app_eq_nil in Hd. destruct Hd as [Et Er]. rewrite render_cons in Er. apply app_eq_nil in Er. destruct Er as [Eg Er]. apply app_eq_nil in Er. destruct Er as [Ex Er].
        assert (Ek : k_tok k = TEnd). { destruct (tok_eqb_spec (k_tok k) TEnd) as [X|X]; [exact X|]. destruct (token_some Hqm HT X Ex). }
        specialize (HEd Ek). subst rest. rewrite Ek in HT. destruct (token_end_inv HT) as [Ev _].
        assert (Es : s = []) by (unfold s; rewrite Et, render_cons, Eg, Ex; reflexivity). rewrite Es in HE. cbn [EppProof.no_text after_text encode flat_map] in HE.
        eexists. split; [apply HE; reflexivity|]. split; [|reflexivity]. cbn [curp]. rewrite Ek, Ev, Ex. cbn [shown embedded top same_val with_tok c_opts c_nls c_tok c_val c_radix c_names c_text c_pos].
        split; [reflexivity|]. split; [reflexivity|]. split; [reflexivity|]. split; [reflexivity|]. split; [discriminate|]. split; [reflexivity|]. split; [reflexivity|].
        exists (c_text c1). cbn [app render flat_map]. rewrite app_nil_r. split; [reflexivity|]. split; [discriminate|]. unfold c1. cbn [fwd with_pos c_text c_pos]. change (c_text c0) with (encode src ++ s). rewrite Es, app_nil_r. reflexivity.
      - assert (En : EppProof.no_text (encode []) s = true) by (destruct s; [congruence|reflexivity]). assert (Ea : after_text (encode []) s c1 = with_tok TRenderString (VStr []) c1) by (destruct s; [congruence|reflexivity]).
        change (encode []) with (@nil Z) in En, Ea. rewrite En, Ea in HE. destruct (K (VStr [])) as (c2 & A1 & A2 & A3). exists c2. split; [apply HE; exact A1|]. auto. }
    destruct X as (c2 & A1 & A2 & A3). eapply ends_ev; [exact A1|]. pose proof (st_refl A2) as S. apply (ends_cur S).
    assert (Ht : tok_eqb (shown m (tok_of ks)) TRenderString = false). { destruct (tok_eqb_spec (tok_of ks) TRenderString) as [X|X]; [destruct (Hfst X eq_refl)|]. destruct (tok_of ks); try reflexivity. congruence. }
    rewrite Ht. cbv iota. eapply ends_step; [reflexivity|]. cbv beta. apply HK; assumption.
  - assert (En : EppProof.no_text (b :: bs) s = false) by (destruct s; reflexivity). assert (Ea : after_text (b :: bs) s c1 = with_tok TRenderString (VStr (b :: bs)) c1) by (destruct s; reflexivity).
    rewrite En, Ea in HE. destruct (K (VStr (b :: bs))) as (c2 & A1 & A2 & A3). eapply ends_ev; [apply HE; reflexivity|]. eapply ends_step; [reflexivity|]. cbv beta.
    change (c_tok (with_tok TRenderString (VStr (b :: bs)) c1)) with TRenderString. change (tok_eqb TRenderString TRenderString) with true. cbv iota.
    apply ends_bind. eapply ends_step; [reflexivity|]. cbv beta. apply ends_bind. eapply ends_ev; [exact A1|]. apply ends_ret. apply HK; assumption.
Qed.
Definition after_prologue (r : recT) (text : str) : M expr :=
  cur <- curTok ;;
  if tok_eqb cur TEnd then p <- span 0 ;; asEppLambda (ERenderString p text)
  else if tok_eqb cur TPipe then
    match text with
    | _ :: _ => issue PARSE_ILLEGAL_EPP_PARAMETERS
    | [] => params <- lambdaParameterList r ;; r unit FNextToken ;; b <- r expr (FParse TEnd false) ;; p <- span 0 ;; asEppLambda (eppLambda params b p)
    end
  else ts <- tokStart ;; r expr (FEppLoop (match text with [] => [] | _ => [ERenderString (mkpos 0 ts) text] end)).
Lemma top_ok single source (Q : expr -> ctx -> Prop) : ends (prologue after_prologue) (start_ctx source (createParser o)) Q -> ends (fun r => parseTop r single) (start_ctx source (createParser o)) Q.
Proof.
  intros H. unfold parseTop. eapply ends_step; [reflexivity|]. cbn [start_ctx createParser c_opts]. rewrite Hepp. cbv iota. exact H.
Qed.
Lemma result_ok single source ps r : ends (fun x => parseTop x single) (start_ctx source (createParser o)) (fun e1 c1 => strip e1 = template_tree ps r /\ map strip (c_defs c1) = defs (template_tree ps r)) ->
  parses o source single (rendering single ps r).
Proof.
  intros (e1 & c1 & (n1 & HE) & E1 & E2). exists (if single then e1 else EProgram (mkpos 0 (c_pos c1)) e1 (c_defs c1)), n1. split.
  - intros n Hn. unfold parse, parse_run. rewrite (HE n Hn). destruct single; reflexivity.
  - unfold rendering. destruct single; [exact E1|]. cbn [strip]. rewrite E1, E2. reflexivity.
Qed.
Lemma st_defs c0 ds ns ks c : st o m c0 ds ns ks c -> c_defs c0 = [] -> map strip (c_defs c) = ds.
Proof. intros (_ & _ & ds1 & D1 & D2) E. rewrite E in D1. cbn [app] in D1. rewrite D1. exact D2. Qed.
Lemma code_at single src out tag ts k es r : tame src -> said src (tag ++ render (ts ++ [k])) out -> tag_or_end (tag ++ render (ts ++ [k])) ->
    opening tag (render (ts ++ [k])) -> stream o m (Some TRenderString) (Some TRenderString) (ts ++ [k]) -> k_tok k = TEnd ->
    (forall k' l, ts = k' :: l -> k_tok k' = TRenderString -> out <> []) ->
    code o ts es -> statements (contents out es) r -> parses o (encode src ++ tag ++ render (ts ++ [k])) single (rendering single [] r).
Proof.
  intros H1 H2 H3 H4 H5 Hk Hf HC HSt. apply result_ok, top_ok. apply (@prologue_ok after_prologue src out tag (ts ++ [k]) _ H1 H2 H3 H4 H5).
  { destruct ts as [|k' l]; [cbn [app tok_of]; congruence|]. cbn [app tok_of]. exact (Hf k' l eq_refl). }
  intros c P Hd. pose proof (st_refl P) as S. unfold after_prologue. apply (ends_cur S). destruct (code_first HC) as [->|[Hne He]].
  - cbn [app tok_of]. rewrite Hk. cbn [shown embedded top]. change (tok_eqb TEnd TEnd) with true. cbv iota. g1. unfold asEppLambda. g1. cbv iota. g1.
    inversion HC; subst; [|match goal with H : D _ _ _ _ _, X : _ ++ _ = [] |- _ => apply app_eq_nil in X; destruct X as [-> _]; destruct (firsts_one (D_firsts H Logic.I) eq_refl) as [Hne _]; congruence end].
    assert (Er : r = [ERenderString z (encode out)]).
    { assert (X : contents out [] = [ERenderString z (encode out)]) by (unfold contents; destruct out; reflexivity). rewrite X in HSt. inversion HSt as [|? ? ? ? HN| ? HN|? ? ? HN HL HR]; subst; [destruct HN as (? & X1 & _); discriminate X1|inversion HR; subst; reflexivity]. }
    rewrite Er. split; [reflexivity|]. rewrite Hd. reflexivity.
  - rewrite (tok_of_app _ Hne). assert (X1 : tok_eqb (shown m (tok_of ts)) TEnd = false) by (destruct (tok_of ts); try reflexivity; discriminate He).
    assert (X2 : tok_eqb (shown m (tok_of ts)) TPipe = false) by (destruct (tok_of ts); try reflexivity; discriminate He). rewrite X1, X2. cbv iota. eapply ends_step; [reflexivity|]. cbv beta.
    assert (He' : es <> []) by (intros ->; inversion HC; subst; congruence).
    eapply ends_imp; [eapply (@code_ok ts es HC _ c [] c k r); [exact S|exact Hk|]|].
    + refine (eq_ind _ (fun x => statements x r) HSt _ _). unfold contents. destruct out as [|r1 out]; [destruct es; [congruence|reflexivity]|]. destruct (encode (r1 :: out)) as [|b bs] eqn:Eo.
      * rewrite encode_cons in Eo. apply app_eq_nil in Eo. destruct Eo as [Eo _]. destruct (@encode_rune_nonempty r1 Eo).
      * reflexivity.
    + cbv beta. intros e1 c1 (S1 & E1). split; [exact E1|]. rewrite (st_defs S1 Hd). unfold template_tree. cbn [defs flat_map opt_flat app]. rewrite (defs_statements HSt). unfold contents. destruct out, es; reflexivity.
Qed.
Lemma parameters_at single src tag k1 ts1 ps k2 ts2 k es r : let ks := k1 :: ts1 ++ k2 :: ts2 ++ [k] in
    tame src -> said src (tag ++ render ks) [] -> tag_or_end (tag ++ render ks) ->
    opening tag (render ks) -> stream o m (Some TRenderString) (Some TRenderString) ks -> k_tok k = TEnd ->
    k_tok k1 = TPipe -> D (o_workflow o) [] (ListOf Param) ts1 ps -> k_tok k2 = TPipeEnd ->
    D (o_workflow o) [] Stmts ts2 es -> statements es r -> (forall k' l, ts2 = k' :: l -> k_tok k' <> TLc) -> parses o (encode src ++ tag ++ render ks) single (rendering single ps r).
Proof.
  intros ks H1 H2 H3 H4 H5 Hk Hk1 HP Hk2 HD HSt HL. apply result_ok, top_ok. apply (@prologue_ok after_prologue src [] tag ks _ H1 H2 H3 H4 H5).
  { cbn [ks tok_of]. congruence. }
  intros c P Hd. pose proof (st_refl P) as S. unfold after_prologue. apply (ends_cur S). cbn [ks tok_of]. rewrite Hk1. cbn [shown]. change (tok_eqb TPipe TEnd) with false. change (tok_eqb TPipe TPipe) with true. cbv iota.
  change (encode []) with (@nil Z). cbv iota. unfold lambdaParameterList.
  pose proof (@D_sem o m Hfac Hm [] (ListOf Param) ts1 ps HP eq_refl) as HS1. cbn [sem] in HS1. unfold ks in S.
  g1. g1. callL HS1. 
  match goal with S' : GrammarBase.st _ _ _ _ _ (k2 :: _) _ |- _ => eapply (ends_nextp Hfac Hm S'); [rewrite Hk2; discriminate|] end. intros c9 S9 P9. rewrite Hk2 in P9.
  apply ends_bind. eapply ends_imp; [eapply (@sem_statements o m Hfac Hm (Some TPipeEnd) [] ts2 es r TEnd _ _ c9 [k]); [apply (@D_sem o m Hfac Hm); [exact HD|exact Logic.I]|exact HSt|auto|exact Hk|exact S9|exact P9|]|].
  - intros k' l' E'. right. right. split; [reflexivity|]. destruct ts2 as [|k2' ts2']; [cbn [app] in E'; injection E' as <- _; congruence|]. cbn [app] in E'. injection E' as <- _. eapply HL. reflexivity.
  - intros e1 c10 (S10 & E1). g1. unfold asEppLambda, eppLambda. g1. cbv iota. g1. unfold template_tree. cbn [strip map option_map defs flat_map opt_flat app]. split; [rewrite E1, E; reflexivity|].
    exact (st_defs S10 Hd).
Qed.
End Epp.
Theorem template_parses o source single ps r : templates o -> template o source ps r -> parses o source single (rendering single ps r).
Proof. intros Ht [n src out tag ts k es r' H1 H2 H3 H4 H5 Hk Hf HC HSt|n src tag k1 ts1 ps' k2 ts2 k es r' ks H1 H2 H3 H4 H5 Hk Hk1 HP Hk2 HD HSt HL]; [eapply code_at; eauto|eapply parameters_at; eauto]. Qed.
