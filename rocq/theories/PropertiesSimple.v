(** * PropertiesSimple: the lexer of NewSimpleLexer reads the tokens of a line (C54) *)
From Verif Require Import Base Float Tokens Ast Ctx Lexer Parser SpecReader SpecStrip LexBase SpecLex GapProof Evals LexStream LexTags LexCur LexSim FuelMono.
From Verif Require WholeProof.
From Coq Require Import Lia.

(** the options NewSimpleLexer stands for: every extension is off *)
Definition simple (isL : Z -> bool) : opts := mkopts false false false false false false isL.
(** [reads c ts e]: from the state [c], each call of NextToken gives the next one
    of the tokens [ts] (its kind and its value); the state is then [e] *)
Inductive reads : ctx -> list (tok * tval) -> ctx -> Prop :=
| reads_none c : reads c [] c
| reads_one n c d t v ts e : run n FNextToken c = Ok tt d -> c_tok d = t -> c_val d = v -> reads d ts e -> reads c ((t, v) :: ts) e.
(** code, without strings that have interpolations *)
Definition code : mode := mkmode false (fun _ _ => False).

Section Read.
Variables (isL : Z -> bool) (T : str).
Hypothesis HT : ~ In 10 T.
Hypothesis HQ : ~ In 34 T \/ ~ In 36 T.
Let o' : opts := simple isL.
Let o : opts := mkopts false false false false false true isL.
Lemma code_lawful : lawful o code.
Proof. intros e txt []. Qed.
Lemma stream_same p2 p ks : stream o' code p2 p ks -> stream o code p2 p ks.
Proof. clear HT HQ.
  assert (X : forall t v r x, token_text o' t v r x -> token_text o t v r x).
  { intros t v r x H. destruct H; try (econstructor; eassumption). exact (tt_plan o radix). }
  assert (W : forall t v r x, written o' code t v r x -> written o code t v r x).
  { intros t v r x H. inversion H as [? ? ? ? H1 H2|? ? ? H1|? ? H1|? ? ? ? ? ? H1|? ? ? H1|? ? ? ? H1|? ? ? H1]; subst; try discriminate H1; [apply wr_token; auto|destruct H1]. }
  revert p2 p. induction ks as [|k rest IH]; intros p2 p; [auto|]. cbn [stream]. intuition.
Qed.
Lemma sim_one c c' d : S T o o' c c' -> evals (fun r => r unit FNextToken) c tt d -> exists n d', run n FNextToken c' = Ok tt d' /\ S T o o' d d'.
Proof.
  intros HS (n & E). specialize (E n (le_n n)). pose proof (@next_same T o o' HT HQ eq_refl eq_refl eq_refl n c c' HS) as K. cbv beta in E. rewrite E in K.
  destruct K as ([] & d' & K1 & _ & K2). eauto.
Qed.
Lemma read_end k : forall c c', S T o o' c c' -> c_nls c = -1 -> c_pos c = zlen (c_text c) -> exists e, reads c' (repeat (TEnd, VNil) k) e /\ c_pos e = zlen T.
Proof.
  induction k as [|k IH]; intros c c' HS Hn Hp; [exists c'; split; [constructor|]; destruct HS as (X & _ & ->); cbn; congruence|].
  assert (H : at_ c []) by (exists (c_text c); rewrite app_nil_r; auto).
  destruct (@next_end c [] (end_plain gap_nil) H Hn) as (c1 & E & (K1 & K2 & K3 & K4 & K5) & A1 & A2 & A3). destruct (sim_one HS E) as (n & d' & R & HS').
  pose proof HS' as (_ & _ & X). destruct (IH c1 d' HS') as (e & HE & HP); [congruence|rewrite A3, K1, Hp; change (@zlen Z []) with 0; lia|].
  exists e. split; [|exact HP]. cbn [repeat]. eapply reads_one; [exact R|rewrite X; exact A1|rewrite X; exact A2|exact HE].
Qed.
Lemma value_same t v r x w : written o code t v r x -> same_val w v -> w = v.
Proof.
  intros HW H. destruct v eqn:E; try exact H. exfalso. inversion HW; subst; try discriminate; match goal with X : token_text _ _ _ _ _ |- _ => inversion X | X : strings code _ _ |- _ => destruct X end.
Qed.
Lemma read_rest k rest : forall prev ns k0 c c', S T o o' c c' -> curp o code prev ns (k0 :: rest) c ->
  exists e, reads c' (map (fun k => (k_tok k, k_val k)) rest ++ repeat (TEnd, VNil) k) e /\ c_pos e = zlen T.
Proof.
  induction rest as [|k2 rest IH]; intros prev ns k0 c c' HS HC.
  - cbn [map app]. destruct HC as (Ho & Hn & _ & _ & _ & _ & _ & pre & HTx & _ & HP). cbn [embedded code] in HP. eapply read_end; eauto.
  - destruct (@next_okp o code eq_refl code_lawful prev ns k0 k2 rest c HC) as (c1 & E & HC1 & _ & _). destruct (sim_one HS E) as (n & d' & R & HS').
    pose proof HS' as (_ & _ & X). pose proof HC1 as (_ & _ & Ht & Hv & _). destruct (IH _ _ _ _ _ HS' HC1) as (e & HE & HP). exists e. split; [|exact HP]. cbn [map app]. eapply reads_one; [exact R| | |exact HE].
    + rewrite X. cbn [c_tok]. rewrite Ht. unfold shown. cbn [embedded code]. destruct (k_tok k2); reflexivity.
    + rewrite X. cbn [c_val].
      destruct HC as (_ & _ & _ & _ & _ & _ & HST & _). apply stream_cons in HST. destruct HST as (HW & _). eapply value_same; eauto.
Qed.
Lemma start_sim : S T o o' (mkctx T o 0 (-1) TEnd 0 0 VNil 0 [] []) (simpleLexer isL T).
Proof. repeat split. Qed.
End Read.

(** ** C54: the tokens of a line are read one after the other, and then the end *)
Theorem C54_tokens_of_a_line_partial : forall isL ks k,
  stream (simple isL) code None None ks -> ~ In 10 (render ks) -> ~ In """"%ch (render ks) \/ ~ In "$"%ch (render ks) ->
  exists e, reads (simpleLexer isL (render ks)) (map (fun k => (k_tok k, k_val k)) ks ++ repeat (TEnd, VNil) k) e /\ c_pos e = zlen (render ks).
Proof.
  intros isL ks k HS HT HQ. set (o := mkopts false false false false false true isL).
  pose proof (start_sim isL (render ks)) as H0. destruct ks as [|k0 rest]; [discriminate HS|].
  assert (HS' : stream o code None None (k0 :: rest)) by (eapply stream_same; exact HS).
  destruct (@first_ok o code eq_refl (code_lawful isL) (k0 :: rest) (mkctx (render (k0 :: rest)) o 0 (-1) TEnd 0 0 VNil 0 [] [])) as (c1 & E & HC & _ & _); try reflexivity; [exact HS'|].
  destruct (@sim_one isL (render (k0 :: rest)) HT HQ _ _ _ H0 E) as (n & d' & R & HD). pose proof HD as (_ & _ & X). 
  pose proof HC as (_ & _ & Ht & Hv & _). destruct (@read_rest isL _ HT HQ k rest _ _ _ _ _ HD HC) as (e & HE & HP). exists e. split; [|exact HP]. cbn [map app]. eapply reads_one; [exact R| | |exact HE].
  - rewrite X. cbn [c_tok]. rewrite Ht. unfold shown. cbn [embedded code]. destruct (k_tok k0); reflexivity.
  - rewrite X. cbn [c_val]. apply stream_cons in HS'. destruct HS' as (HW & _). eapply value_same; eauto.
Qed.
Print Assumptions C54_tokens_of_a_line_partial.

(** ... and nothing else is read *)
Theorem C54_tokens_are_determined : forall c ts us d e, reads c ts d -> reads c us e -> List.length ts = List.length us -> ts = us /\ d = e.
Proof.
  intros c ts us d0 e0 H. revert us e0. induction H as [c|n c d t v ts e HR Ht Hv H IH]; intros us e0 HU HL.
  - destruct us; [|discriminate HL]. inversion HU; subst. auto.
  - inversion HU as [|n' c' d' t' v' us' e' HR' Ht' Hv' HU' E1 E2]; subst; [discriminate HL|].
    assert (E : Ok tt d = Ok tt d').
    { destruct (Nat.le_ge_cases n n') as [L|L]; destruct (run_mono FNextToken L c) as [K|K]; congruence. }
    injection E as <-. cbn in HL. destruct (IH _ _ HU') as [-> ->]; [lia|auto].
Qed.
Print Assumptions C54_tokens_are_determined.

(** The end is told at the end of the source only, whatever the source is *)
Theorem C54_end_is_the_end : forall isL source ts d, ~ In 0 source ->
  reads (simpleLexer isL source) (ts ++ [(TEnd, VNil)]) d -> zlen source <= c_pos d.
Proof.
  intros isL source ts d H0. assert (K : forall c, c_text c = source -> c_opts c = simple isL -> forall d, reads c (ts ++ [(TEnd, VNil)]) d -> zlen source <= c_pos d); [|apply K; reflexivity].
  clear d. induction ts as [|[t v] ts IH]; intros c HT Ho d HD; cbn [app] in HD; inversion HD as [|n' c' d' t' v' us' e' HR Ht Hv HD' E1 E2]; subst.
  all: match type of HR with run ?n _ _ = _ => pose proof (@WholeProof.good_run (c_text c) (c_opts c) H0 ltac:(rewrite Ho; discriminate) n) as (_ & G & _) end; specialize (G c (conj eq_refl eq_refl)); rewrite HR in G; destruct G as [[G1 G2] G3].
  - inversion HD'; subst. apply G3. congruence.
  - apply (IH d'); congruence.
Qed.
Print Assumptions C54_end_is_the_end.

(** ** Case: a call with a regular expression, a division and a comment *)
Definition t (g : str) (b : bool) (k : tok) (v : tval) (x : string) : tk := mktk g b k v 10 (lit x).
Definition sample : list tk := [
  t [] false TIdentifier (VStr (lit "foo")) "foo"; t [] false TLp VNil "("; t [] false TVariable (VStr (lit "a")) "$a"; t (lit " ") false TDivide VNil "/";
  t (lit " /* by */ ") false TInteger (VInt 12) "12"; t [] false TComma VNil ","; t (lit " ") false TString (VStr (lit "it's")) "'it\'s'";
  t [] false TRp VNil ")"; t (lit " ") false TFarrow VNil "=>"; t (lit " # end") false TEnd VNil ""].
Example C54_case_text : render sample = lit "foo($a / /* by */ 12, 'it\'s') => # end".
Proof. vm_compute. reflexivity. Qed.
Ltac name_text := first [apply q_one; [unfold lower, upper; cbn; lia|repeat constructor; unfold wordchar, lower, upper, digit; cbn; lia]].
Example C54_case : stream (simple (fun _ => false)) code None None sample /\ ~ In 10 (render sample) /\ ~ In """"%ch (render sample).
Proof.
  split; [|rewrite C54_case_text; split; vm_compute; intuition discriminate].
  unfold sample, t. cbn [app stream k_tok k_val k_radix k_txt k_gap k_brk].
  repeat match goal with
  | |- _ /\ _ => split
  | |- SpecLex.written _ _ _ _ _ _ => apply wr_token; [|first [reflexivity|discriminate]]
  | |- token_text _ TEnd _ _ _ => apply tt_end
  | |- token_text _ TIdentifier _ _ _ => apply tt_name; [name_text|vm_compute; intuition discriminate]
  | |- token_text _ TVariable _ _ _ => apply (@tt_var _ [97]); name_text
  | |- token_text _ TInteger (VInt ?n) _ _ => apply (@tt_decimal _ [1; 2]); [cbn; lia|repeat constructor; lia|vm_compute; reflexivity]
  | |- token_text _ TString _ _ _ => apply (@tt_single _ (lit "it\'s") (lit "it's")); vm_compute; do 2 (apply sq_plain; [repeat constructor; discriminate|discriminate|discriminate|]); apply sq_quote; apply sq_plain; [repeat constructor; discriminate|discriminate|discriminate|]; constructor
  | |- token_text _ _ VNil _ _ => apply tt_punct; vm_compute; tauto
  | |- if embedded _ then _ else _ => cbn [embedded code]
  | |- gap _ (lit " /* by */ ") \/ _ => left; apply gap_blank; [auto|]; apply (@gap_block false (lit " by ")); [repeat constructor; discriminate|intros (a & b & E); revert E; do 6 (destruct a as [|? a]; [discriminate|]); discriminate|]; repeat constructor
  | |- gap _ (lit " # end") \/ _ => right; split; [reflexivity|]; apply (@end_comment false (lit " ") (lit " end")); [repeat constructor|repeat constructor; discriminate|vm_compute; intuition discriminate]
  | |- gap _ _ \/ _ => left; repeat constructor
  | |- ~ clash _ _ _ => vm_compute; try (intuition (try discriminate; try lia)); match goal with H : exists _, _ |- _ => destruct H; discriminate end
  | |- situated _ _ _ _ _ _ TLp => split; [reflexivity|discriminate]
  | |- situated _ _ _ _ _ _ TDivide => exists TVariable; split; [reflexivity|vm_compute; tauto]
  | |- situated _ _ _ _ _ _ _ => exact Logic.I
  | |- _ -> _ => discriminate
  end; reflexivity.
all: match goal with |- ?g => idtac g end. Qed.
(** *** Not so with a newline: the first one makes the lexer begin again *)
Theorem C54_refuted_newline : exists e, reads (simpleLexer (fun _ => false) (lit "a" ++ 10 :: lit "b"))
  [(TIdentifier, VStr (lit "a")); (TIdentifier, VStr (lit "a")); (TIdentifier, VStr (lit "b")); (TEnd, VNil)] e.
Proof.
  eexists.  do 4 (eapply (@reads_one 30); [vm_compute; reflexivity|reflexivity|reflexivity|]). constructor.
Qed.
(** nor with an escaped dollar sign: the backslash stays *)
Theorem C54_refuted_dollar : exists e, reads (simpleLexer (fun _ => false) (lit """\$x""")) [(TString, VStr (lit "\$x")); (TEnd, VNil)] e.
Proof.
  eexists.  do 2 (eapply (@reads_one 30); [vm_compute; reflexivity|reflexivity|reflexivity|]). constructor.
Qed.
