(** * GrammarTree: what the parser does to trees, without positions *)
From Verif Require Import Base Float Tokens Ast Ctx Locator Lexer Parser SpecLex Evals Ends SpecGrammar.
From Coq Require Import Lia ZifyBool.

Lemma strip_set_pos p e : strip (set_pos p e) = strip e.
Proof. destruct e; reflexivity. Qed.
(** ** Method calls *)
Lemma strip_convert e : forall args l p, (exists q op a b, e = EBin q KNamedAccess op a b) ->
  strip (convertLhsToCall e args l p) = ECallMethod z true (EBin z KNamedAccess [] (invoke (match strip e with EBin _ _ _ a _ => a | x => x end)) (match strip e with EBin _ _ _ _ b => b | x => x end)) (map strip args) (option_map strip l).
Proof.
  induction e; intros aa ll pp (q0 & op0 & x1 & x2 & E); try discriminate E. injection E as -> -> -> -> ->.
  cbn [convertLhsToCall strip]. f_equal. f_equal.
  destruct x1; try reflexivity. destruct k; try reflexivity. rewrite IHe1 by eauto. reflexivity.
Qed.
Definition convert (e : expr) : expr := match e with EBin p KNamedAccess _ _ _ => convertLhsToCall e [] None p | _ => e end.
Lemma strip_invoke e : strip (convert e) = invoke (strip e).
Proof.
  destruct e; try reflexivity. destruct k; try reflexivity. cbn [convert]. rewrite strip_convert by eauto. reflexivity.
Qed.
Lemma defs_invoke e : defs (invoke e) = defs e.
Proof.
  induction e; try reflexivity. destruct k; try reflexivity. cbn [invoke defs flat_map opt_flat]. rewrite IHe1. now rewrite app_nil_r.
Qed.
Definition make_call (functor : expr) (args : list expr) (block : option expr) (p : pos) : expr :=
  match functor with EBin _ KNamedAccess _ _ _ => convertLhsToCall functor args block p | _ => ECallNamed p true functor args block end.
Lemma strip_call f args l p : strip (make_call f args l p) = call (strip f) (map strip args) (option_map strip l).
Proof.
  destruct f; try reflexivity. destruct k; try reflexivity. cbn [make_call]. rewrite strip_convert by eauto. reflexivity.
Qed.
Lemma defs_call f args l : defs (call f args l) = defs f ++ flat_map defs args ++ opt_flat defs l.
Proof. destruct f; try reflexivity. destruct k; try reflexivity. cbn [call defs]. rewrite defs_invoke. reflexivity. Qed.
(** ** Key/value pairs *)
Lemma keyed_strip e : isKeyedEntry (strip e) = isKeyedEntry e.
Proof. destruct e; reflexivity. Qed.
Lemma keyed_b e : keyed e <-> isKeyedEntry e = true.
Proof. destruct e; cbn; split; intros; try discriminate; try contradiction; auto. Qed.
Lemma strip_hash l : l <> [] -> strip (newHashWithoutBraces l) = EHash z (map strip l).
Proof. destruct l; [congruence|reflexivity]. Qed.
(** the pairs at the front of a list *)
Lemma grouped_det es l : grouped es l -> forall l', grouped es l' -> l = l'.
Proof.
  intros H. induction H as [|es rest out Hn HF HR HG IH|e rest out Hk HG IH]; intros l' H'.
  - inversion H' as [|es' rest' out' Hn' HF' HR' HG' E|]; [reflexivity|]. apply app_eq_nil in E. destruct E as [-> ->]. now destruct Hn'.
  - inversion H' as [E|es' rest' out' Hn' HF' HR' HG' E|e' rest' out' Hk' HG' E].
    + symmetry in E. apply app_eq_nil in E. destruct E; congruence.
    + assert (K : es' = es /\ rest' = rest). { clear - HF HF' HR HR' E. revert es' HF' E. induction HF as [|x xs Hx HF IH]; intros es' HF' E.
        - destruct HF' as [|y ys Hy HF']; [auto|]. cbn in E. subst rest. contradiction.
        - destruct HF' as [|y ys Hy HF']; [cbn in E; subst rest'; contradiction|]. cbn in E. injection E as -> E. destruct (IH ys HF' E) as [-> ->]. auto. }
      destruct K as [-> ->]. f_equal. auto.
    + destruct HF as [|x xs Hx HF]; [congruence|]. cbn in E. injection E as -> _. contradiction.
  - inversion H' as [|es' rest' out' Hn' HF' HR' HG' E|e' rest' out' Hk' HG' E].
    + destruct HF' as [|x xs Hx HF']; [congruence|]. cbn in E. injection E as -> _. contradiction.
    + f_equal. auto.
Qed.
Lemma process_ok es : forall coll, Forall keyed coll -> exists l,
  map strip (processHashEntries coll es) = l /\ grouped (map strip (coll ++ es)) l.
Proof.
  induction es as [|e es IH]; intros coll HC; cbn [processHashEntries].
  - rewrite app_nil_r. destruct coll as [|x xs]; [exists []; split; [reflexivity|constructor]|]. eexists. split; [reflexivity|].
    cbn [map]. rewrite (@strip_hash (x :: xs)) by discriminate. change (strip x :: map strip xs) with (map strip (x :: xs)). rewrite <- (app_nil_r (map strip (x :: xs))) at 1.
    apply g_hash; [discriminate| |exact Logic.I|constructor]. apply Forall_map. eapply Forall_impl; [|exact HC]. intros a. rewrite !keyed_b, keyed_strip. auto.
  - destruct (isKeyedEntry e) eqn:Ee.
    + assert (HC' : Forall keyed (coll ++ [e])) by (apply Forall_app; split; [exact HC|constructor; [now apply keyed_b|constructor]]).
      destruct (IH _ HC') as (l & El & Hl). exists l. split; [exact El|]. rewrite <- app_assoc in Hl. exact Hl.
    + destruct (IH [] (Forall_nil _)) as (l & El & Hl). cbn [app] in Hl. eexists. split; [reflexivity|]. rewrite !map_app. cbn [map]. rewrite El.
      assert (Hk : ~ keyed (strip e)) by (rewrite keyed_b, keyed_strip, Ee; discriminate).
      assert (G : grouped (strip e :: map strip es) (strip e :: l)) by (apply g_item; assumption).
      destruct coll as [|x xs]; [exact G|]. cbn [map]. rewrite (@strip_hash (x :: xs)) by discriminate.
      apply (@g_hash (map strip (x :: xs))); [discriminate| |exact Hk|exact G]. apply Forall_map. eapply Forall_impl; [|exact HC]. intros a. rewrite !keyed_b, keyed_strip. auto.
Qed.
Lemma no_keyed es : existsb isKeyedEntry es = false -> grouped (map strip es) (map strip es).
Proof.
  induction es as [|e es IH]; cbn; intros H; [constructor|]. apply orb_false_iff in H. destruct H as [H1 H2]. apply g_item; [|auto]. rewrite keyed_b, keyed_strip, H1. discriminate.
Qed.
Lemma join_grouped es l : grouped (map strip es) l -> map strip (joinHashEntries es) = l.
Proof.
  intros H. unfold joinHashEntries. destruct (existsb isKeyedEntry es) eqn:E.
  - destruct (@process_ok es [] (Forall_nil _)) as (l' & E' & H'). rewrite E'. eapply grouped_det; eassumption.
  - eapply grouped_det; [apply no_keyed; exact E|exact H].
Qed.
Lemma defs_grouped es l : grouped es l -> flat_map defs l = flat_map defs es.
Proof. induction 1; [reflexivity| |]; cbn [flat_map defs]; rewrite ?flat_map_app, IHgrouped; reflexivity. Qed.
(** ** Statements *)
Lemma statement_b e : statement_name (strip e) <-> match e with EQName _ n => isStatementCall n = true | _ => False end.
Proof.
  unfold statement_name. split.
  - intros (n & E & HI). destruct e; try discriminate E. injection E as ->. unfold isStatementCall. apply mem_str_In. exact HI.
  - destruct e; try contradiction. intros H. eexists. split; [reflexivity|]. apply mem_str_In in H. exact H.
Qed.

Lemma strip_used b e : strip (set_rval b e) = used b (strip e).
Proof. destruct e; reflexivity. Qed.
Lemma comma_b e : comma_list (strip e) <-> match e with ECommaList _ _ => True | _ => False end.
Proof. destruct e; cbn; tauto. Qed.
Lemma strip_arguments e : map strip (match e with ECommaList _ l => l | _ => [set_rval true e] end) = arguments (strip e).
Proof. destruct e; reflexivity. Qed.
Fixpoint commas (es : list expr) : Prop := match es with [] => False | e :: es => match e with ECommaList _ _ => True | _ => commas es end end.
Lemma check_ok es : ~ commas es -> forall c, check_commas es c = Ok tt c.
Proof. induction es as [|e es IH]; intros H c; [reflexivity|]. destruct e; cbn in *; try (apply IH; exact H). tauto. Qed.
Lemma transform_ok es out : statements es out -> forall es1, map strip es1 = es ->
  match es1 with [] => out = [] | m :: es' => map strip (fst (transform_from m es')) = out /\ ~ commas (fst (transform_from m es')) end.
Proof.
  intros H. induction H as [|f a rest out Hf HS IH|f Hf|e rest out Hn Hc HS IH]; intros es1 E.
  - destruct es1; [reflexivity|discriminate].
  - destruct es1 as [|f1 es1]; [discriminate|]. destruct es1 as [|a1 es1]; [discriminate|]. cbn [map] in E. injection E as Ef Ea E.
    cbn [transform_from]. rewrite <- Ef in Hf. apply statement_b in Hf. destruct f1; try contradiction. rewrite Hf.
    specialize (IH es1 E). pose proof (strip_arguments a1) as Hargs. rewrite Ea in Hargs. destruct es1 as [|m es2].
    + subst out. cbn [fst map strip commas]. rewrite Hargs. cbn [option_map]. rewrite <- Ef. cbn [strip]. split; [reflexivity|tauto].
    + destruct (transform_from m es2) as [r b]. cbn [fst] in IH |- *. destruct IH as [IH1 IH2]. cbn [map strip commas]. rewrite Hargs, IH1, <- Ef. split; [reflexivity|exact IH2].
  - destruct es1 as [|f1 es1]; [discriminate|]. cbn [map] in E. injection E as Ef E. destruct es1; [|discriminate]. rewrite <- Ef in Hf. apply statement_b in Hf. destruct f1; try contradiction.
    cbn. rewrite <- Ef. split; [reflexivity|tauto].
  - destruct es1 as [|e1 es1]; [discriminate|]. cbn [map] in E. injection E as Ee E. rewrite <- Ee in Hn, Hc. rewrite statement_b in Hn. rewrite comma_b in Hc.
    specialize (IH es1 E). destruct es1 as [|m es2].
    + cbn [transform_from fst map]. subst out. rewrite strip_used, Ee. split; [reflexivity|]. destruct e1; cbn; tauto.
    + assert (X : transform_from e1 (m :: es2) = (let (r, b) := transform_from m es2 in (set_rval false e1 :: r, b))).
      { destruct e1; try reflexivity. cbn [transform_from]. destruct (isStatementCall name); [congruence|]. reflexivity. }
      rewrite X. destruct (transform_from m es2) as [r b]. cbn [fst] in IH |- *. destruct IH as [IH1 IH2]. cbn [map]. rewrite strip_used, Ee, IH1. split; [reflexivity|].
      destruct e1; cbn [set_rval commas]; tauto.
Qed.
Lemma transformCalls_ok es out es1 c : statements es out -> map strip es1 = es -> exists out1, transformCalls es1 c = Ok out1 c /\ map strip out1 = out.
Proof.
  intros H E. pose proof (transform_ok H E) as K. unfold transformCalls. destruct es1 as [|m es']; [exists []; subst; auto|].
  destruct (transform_from m es') as [r b]. cbn [fst] in K. destruct K as [K1 K2]. exists r. split; [|exact K1]. unfold bind. destruct b; [rewrite check_ok by exact K2|]; reflexivity.
Qed.
Lemma defs_used b e : defs (used b e) = defs e.
Proof. destruct e; reflexivity. Qed.
Lemma defs_statements es out : statements es out -> flat_map defs out = flat_map defs es.
Proof.
  induction 1 as [|f a rest out Hf HS IH|f Hf|e rest out Hn Hc HS IH]; cbn [flat_map]; [reflexivity| | |].
  - rewrite IH. cbn [defs opt_flat]. rewrite app_nil_r, <- app_assoc. f_equal. f_equal. destruct a; cbn; rewrite ?app_nil_r; reflexivity.
  - reflexivity.
  - now rewrite defs_used, IH.
Qed.
(** ** Other trees *)
Lemma join_snoc sep (l : list str) a b : join sep (l ++ [a ++ sep ++ b]) = join sep ((l ++ [a]) ++ [b]).
Proof.
  induction l as [|x l IH]; [reflexivity|]. cbn [app join].
  destruct ((l ++ [a ++ sep ++ b])) eqn:E1; [destruct l; discriminate|]. destruct ((l ++ [a]) ++ [b]) eqn:E2; [destruct l; discriminate|]. now rewrite IH.
Qed.
Lemma trim_unrooted n : trim_prefix (lit "::") n = unrooted n.
Proof.
  unfold trim_prefix, unrooted. destruct n as [|a n]; [reflexivity|]. change (lit "::") with [58; 58]. cbn [trim_prefix_aux].
  destruct (Z.eqb_spec 58 a) as [<-|Ha].
  - destruct n as [|b n]; [reflexivity|]. destruct (Z.eqb_spec 58 b) as [<-|Hb]; [reflexivity|].
    destruct b as [|p|p]; try reflexivity. repeat (destruct p as [p|p|]; try reflexivity). congruence.
  - destruct a as [|p|p]; try reflexivity. repeat (destruct p as [p|p|]; try reflexivity). congruence.
Qed.
