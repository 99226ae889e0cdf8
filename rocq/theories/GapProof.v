(** * GapProof: skipping white space and comments *)
From Verif Require Import Base Float Tokens Ast Ctx Lexer Utf8Facts SpecReader ReaderProof LexBase SpecLex.
From Coq Require Import Lia ZifyBool.

Lemma at_next_rune c r s : at_ c (encode_rune r ++ s) -> rune_ok r -> next c = Ok (r, c_pos c) (fwd (zlen (encode_rune r)) c).
Proof. intros H (H1 & H2 & H3). apply (at_next H). now apply head_encode. Qed.
Lemma encode_rune_pos r : (1 <= List.length (encode_rune r))%nat.
Proof. pose proof (@encode_rune_nonempty r). destruct (encode_rune r); [congruence|cbn; lia]. Qed.
Lemma encode_cons r rs : encode (r :: rs) = encode_rune r ++ encode rs. Proof. reflexivity. Qed.
Lemma encode_app a b : encode (a ++ b) = encode a ++ encode b.
Proof. unfold encode. apply flat_map_app. Qed.
Lemma encode_ascii b : 0 <= b < 128 -> encode_rune b = [b].
Proof. intros H. unfold encode_rune, valid_rune, encode_rune_raw. replace (_ || _) with true by lia. destruct (Z.ltb_spec b 128); [reflexivity|lia]. Qed.

(** one rune of a line comment *)
Lemma hash_step csp c r s : at_ c (encode_rune r ++ s) -> rune_ok r -> r <> 10 ->
  skipWhite_step false ("#"%ch, csp) c = Ok (inl ("#"%ch, csp)) (fwd (zlen (encode_rune r)) c).
Proof.
  intros H Hr Hn. unfold skipWhite_step. rewrite (bind_ok _ (at_next_rune H Hr)). cbv beta iota zeta. destruct Hr as (_ & _ & H0).
  destruct (Z.eqb_spec r 0); [congruence|]. destruct (Z.eqb_spec r 10); [congruence|].
  destruct (r =? "#"%ch); [reflexivity|]. destruct (r =? "/"%ch); [reflexivity|]. destruct (r =? "*"%ch); [reflexivity|].
  destruct (_ || _); reflexivity.
Qed.
Lemma newline_step cs csp c s : at_ c (10 :: s) -> c_nls c = -1 -> cs = 0 \/ cs = "#"%ch ->
  skipWhite_step false (cs, csp) c = Ok (inl (0, csp)) (with_bol (c_pos c + 1) (fwd 1 c)).
Proof.
  intros H Hn Hc. unfold skipWhite_step. rewrite (bind_ok _ (at_next H (@head_ascii 10 s ltac:(lia)))). cbv beta iota zeta.
  change (10 =? 0) with false. change (10 =? 10) with true. cbv iota.
  replace (cs =? "*"%ch) with false by (destruct Hc; subst; reflexivity).
  unfold bind, modify, ret. cbn [fwd with_pos c_nls]. rewrite Hn. change (0 <=? -1) with false. cbv iota.
  destruct Hc; subst; reflexivity.
Qed.
Lemma sharp_step csp c s : at_ c ("#"%ch :: s) -> skipWhite_step false (0, csp) c = Ok (inl ("#"%ch, c_pos c)) (fwd 1 c).
Proof. intros H. unfold skipWhite_step. rewrite (bind_ok _ (at_next H (@head_ascii "#"%ch s ltac:(lia)))). reflexivity. Qed.
Lemma slash_step csp c s : at_ c ("/"%ch :: "*"%ch :: s) -> skipWhite_step false (0, csp) c = Ok (inl ("*"%ch, c_pos c)) (fwd 2 c).
Proof.
  intros H. unfold skipWhite_step. rewrite (bind_ok _ (at_next H (@head_ascii "/"%ch _ ltac:(lia)))). cbv beta iota zeta.
  change ("/"%ch =? 0) with false. change ("/"%ch =? 10) with false. change ("/"%ch =? "#"%ch) with false. change ("/"%ch =? "/"%ch) with true. cbv iota.
  change (0 =? 0) with true. cbv iota. rewrite (bind_ok _ (at_peek (at_fwd1 H) (@head_ascii "*"%ch s ltac:(lia)))). cbv beta iota.
  change ("*"%ch =? "*"%ch) with true. cbv iota. unfold bind, advance, modify, ret. fold (fwd 1 (fwd 1 c)). rewrite fwd_fwd. reflexivity.
Qed.
(** one rune of a block comment that does not end it *)
Lemma star_step csp c r s : at_ c (encode_rune r ++ s) -> rune_ok r -> (r = "*"%ch -> next_is s (fun x => x <> "/"%ch)) ->
  skipWhite_step false ("*"%ch, csp) c = Ok (inl ("*"%ch, csp)) (fwd (zlen (encode_rune r)) c).
Proof.
  intros H Hr Hs. unfold skipWhite_step. rewrite (bind_ok _ (at_next_rune H Hr)). cbv beta iota zeta. pose proof Hr as (_ & _ & H0).
  destruct (Z.eqb_spec r 0); [congruence|]. destruct (Z.eqb_spec r 10); [reflexivity|].
  destruct (r =? "#"%ch); [reflexivity|]. destruct (r =? "/"%ch); [reflexivity|].
  destruct (Z.eqb_spec r "*"%ch) as [->|_].
  - change ("*"%ch =? "#"%ch) with false. change ("*"%ch =? "*"%ch) with true. cbv iota.
    destruct (Hs eq_refl) as (x & w & Hx & Hn). rewrite (bind_ok _ (at_peek (at_fwd H) Hx)). cbv beta iota.
    destruct (Z.eqb_spec x "/"%ch); [congruence|reflexivity].
  - destruct (_ || _); reflexivity.
Qed.
Lemma close_step csp c s : at_ c ("*"%ch :: "/"%ch :: s) -> skipWhite_step false ("*"%ch, csp) c = Ok (inl (0, csp)) (fwd 2 c).
Proof.
  intros H. unfold skipWhite_step. rewrite (bind_ok _ (at_next H (@head_ascii "*"%ch _ ltac:(lia)))). cbv beta iota zeta.
  change ("*"%ch =? 0) with false. change ("*"%ch =? 10) with false. change ("*"%ch =? "#"%ch) with false. change ("*"%ch =? "/"%ch) with false.
  change ("*"%ch =? "*"%ch) with true. cbv iota.
  rewrite (bind_ok _ (at_peek (at_fwd1 H) (@head_ascii "/"%ch s ltac:(lia)))). cbv beta iota.
  change ("/"%ch =? "/"%ch) with true. cbv iota. unfold bind, advance, modify, ret. fold (fwd 1 (fwd 1 c)). rewrite fwd_fwd. reflexivity.
Qed.
Lemma loop_inl A B n (body : A -> M (A + B)) a c a' c' : body a c = Ok (inl a') c' -> loop (S n) body a c = loop n body a' c'.
Proof. intros H. cbn [loop]. unfold bind. now rewrite H. Qed.

Lemma encode_length rs : (List.length rs <= List.length (encode rs))%nat.
Proof. induction rs as [|r rs IH]; [apply Nat.le_refl|]. rewrite encode_cons, app_length. cbn [List.length]. pose proof (@encode_rune_pos r). lia. Qed.
Lemma hash_loop csp rs : forall n c s, at_ c (encode rs ++ s) -> Forall rune_ok rs -> ~ In 10 rs ->
  loop (List.length rs + n) (skipWhite_step false) ("#"%ch, csp) c = loop n (skipWhite_step false) ("#"%ch, csp) (fwd (zlen (encode rs)) c).
Proof.
  induction rs as [|r rs IH]; intros n c s H HF HN; [cbn; now rewrite fwd_0|].
  inversion HF; subst. cbn [In] in HN. rewrite encode_cons, <- app_assoc in H.
  cbn [plus List.length]. erewrite loop_inl by (eapply hash_step; eauto; tauto).
  rewrite (IH n _ s (at_fwd H) ltac:(assumption) ltac:(tauto)), fwd_fwd, encode_cons, zlen_app. reflexivity.
Qed.
Lemma star_loop csp rs : forall n c s, at_ c (encode rs ++ "*"%ch :: s) -> Forall rune_ok rs -> ~ has_close (rs ++ ["*"%ch]) ->
  loop (List.length rs + n) (skipWhite_step false) ("*"%ch, csp) c = loop n (skipWhite_step false) ("*"%ch, csp) (fwd (zlen (encode rs)) c).
Proof.
  induction rs as [|r rs IH]; intros n c s H HF HN; [cbn; now rewrite fwd_0|].
  inversion HF; subst. rewrite encode_cons, <- app_assoc in H.
  assert (~ has_close (rs ++ ["*"%ch])) as HN'. { intros (a & b & E). apply HN. exists (r :: a), b. cbn. now rewrite E. }
  cbn [plus List.length]. erewrite loop_inl.
  2:{ eapply star_step; eauto. intros ->. destruct rs as [|x rs].
      - exists "*"%ch, 1. split; [reflexivity|discriminate].
      - inversion H3 as [|? ? Hx]; subst. destruct Hx as (X1 & X2 & X3). exists x, (zlen (encode_rune x)). split; [rewrite encode_cons, <- app_assoc; now apply head_encode|].
        intros ->. apply HN. exists [], (rs ++ ["*"%ch]). reflexivity. }
  rewrite (IH n _ s (at_fwd H) ltac:(assumption) HN'), fwd_fwd, encode_cons, zlen_app. reflexivity.
Qed.

(** the whole gap *)
Definition bol_after (c : ctx) (brk : bool) (g : str) (b : Z) : Prop :=
  if brk then exists g1 g2, g = g1 ++ g2 /\ gap false g2 /\ b = c_pos c + zlen g1 else b = c_bol c.
Lemma with_bol_fwd b n c : with_bol b (fwd n c) = fwd n (with_bol b c). Proof. reflexivity. Qed.
Lemma with_bol_bol a b c : with_bol a (with_bol b c) = with_bol a c. Proof. reflexivity. Qed.
Lemma with_bol_id c : with_bol (c_bol c) c = c. Proof. now destruct c. Qed.
Lemma at_with_bol b c s : at_ c s -> at_ (with_bol b c) s.
Proof. intros H. eapply at_state; [exact H|reflexivity|reflexivity]. Qed.

Lemma bol_after_cons c b g x brk n : bol_after (fwd n c) brk g b -> n = zlen x -> bol_after c brk (x ++ g) b.
Proof.
  unfold bol_after. destruct brk; [|auto]. intros (g1 & g2 & -> & H1 & H2) ->. exists (x ++ g1), g2. rewrite app_assoc. repeat split; auto.
  rewrite H2, zlen_app. cbn [fwd with_pos c_pos]. lia.
Qed.
Lemma gap_loop brk g : gap brk g -> forall c s csp, at_ c (g ++ s) -> c_nls c = -1 ->
  exists k csp' b, (k <= List.length g)%nat /\ bol_after c brk g b /\
  forall n, loop (k + n) (skipWhite_step false) (0, csp) c = loop n (skipWhite_step false) (0, csp') (with_bol b (fwd (zlen g) c)).
Proof.
  induction 1 as [|brk b g Hb Hg IH|brk g Hg IH|brk rs g HF HN Hg IH|brk rs g HF HN Hg IH]; intros c s csp H Hn.
  - exists O, csp, (c_bol c). repeat split; auto. intros n. cbn. now rewrite fwd_0, with_bol_id.
  - destruct (IH (fwd 1 c) s csp (at_fwd1 H) Hn) as (k & csp' & b' & Hk & Hb' & E). exists (S k), csp', b'. split; [cbn; lia|]. split.
    + apply (@bol_after_cons c b' g [b] brk 1); auto.
    + intros n. cbn [plus]. erewrite loop_inl by (apply (skipWhite_step_blank false csp H); exact Hb). rewrite E, fwd_fwd, zlen_cons. reflexivity.
  - set (c1 := with_bol (c_pos c + 1) (fwd 1 c)).
    destruct (IH c1 s csp (at_with_bol _ (at_fwd1 H)) Hn) as (k & csp' & b' & Hk & Hb' & E). exists (S k), csp', b'. split; [cbn; lia|]. split.
    + unfold bol_after in *. destruct brk.
      * destruct Hb' as (g1 & g2 & -> & H1 & H2). exists (10 :: g1), g2. repeat split; auto. rewrite H2, zlen_cons. unfold c1. cbn. lia.
      * exists [10], g. repeat split; auto.
    + intros n. cbn [plus]. erewrite loop_inl by (eapply newline_step; [exact H|exact Hn|auto]). fold c1. rewrite E.
      unfold c1. rewrite <- with_bol_fwd, with_bol_bol, fwd_fwd, zlen_cons. reflexivity.
  - rewrite <- app_comm_cons, <- app_assoc in H. pose proof (at_fwd1 H) as H1. pose proof (at_fwd H1) as H2. rewrite <- app_comm_cons in H2.
    set (c2 := fwd (zlen (encode rs)) (fwd 1 c)) in *. set (c3 := with_bol (c_pos c2 + 1) (fwd 1 c2)).
    destruct (IH c3 s (c_pos c) (at_with_bol _ (at_fwd1 H2)) Hn) as (k & csp' & b' & Hk & Hb' & E).
    exists (S (List.length rs + S k))%nat, csp', b'. pose proof (encode_length rs) as HL.
    split; [|split].
    + cbn. rewrite app_length. cbn. lia.
    + unfold bol_after in *. destruct brk.
      * destruct Hb' as (g1 & g2 & -> & G1 & G2). exists ("#"%ch :: encode rs ++ 10 :: g1), g2. repeat split; auto.
        -- cbn. rewrite <- app_assoc. reflexivity.
        -- rewrite G2. unfold c3, c2. cbn [fwd with_pos c_pos with_bol]. rewrite zlen_cons, zlen_app, zlen_cons. lia.
      * exists ("#"%ch :: encode rs ++ [10]), g. repeat split; auto.
        -- cbn. rewrite <- app_assoc. reflexivity.
        -- rewrite Hb'. unfold c3, c2. cbn [fwd with_pos c_pos with_bol c_bol]. rewrite zlen_cons, zlen_app. unfold zlen. cbn [List.length]. lia.
    + intros n. cbn [plus]. erewrite loop_inl by (apply (sharp_step csp H)). rewrite <- Nat.add_assoc. rewrite (hash_loop (c_pos c) _ H1 HF HN). fold c2.
      cbn [plus]. erewrite loop_inl by (eapply newline_step; [exact H2|exact Hn|auto]). fold c3. rewrite E.
      unfold c3, c2. rewrite <- !with_bol_fwd, with_bol_bol, !fwd_fwd, zlen_cons, zlen_app, zlen_cons.
      replace (1 + zlen (encode rs) + 1 + zlen g) with (1 + (zlen (encode rs) + (1 + zlen g))) by lia. reflexivity.
  - rewrite <- !app_comm_cons, <- app_assoc, <- !app_comm_cons in H. pose proof (at_fwd1 (at_fwd1 H)) as H1. pose proof (at_fwd H1) as H2.
    set (c2 := fwd (zlen (encode rs)) (fwd 1 (fwd 1 c))) in *. set (c3 := fwd 2 c2).
    assert (H3 : at_ c3 (g ++ s)). { unfold c3. pose proof (at_fwd1 (at_fwd1 H2)) as K. now rewrite fwd_fwd in K. }
    destruct (IH c3 s (c_pos c) H3 Hn) as (k & csp' & b' & Hk & Hb' & E).
    exists (S (List.length rs + S k))%nat, csp', b'. pose proof (encode_length rs) as HL.
    split; [|split].
    + cbn. rewrite app_length. cbn. lia.
    + replace ("/"%ch :: "*"%ch :: encode rs ++ "*"%ch :: "/"%ch :: g) with (("/"%ch :: "*"%ch :: encode rs ++ ["*"%ch; "/"%ch]) ++ g)
        by (cbn; rewrite <- app_assoc; reflexivity).
      unfold c3, c2 in Hb'. rewrite !fwd_fwd in Hb'. eapply bol_after_cons; [exact Hb'|]. rewrite !zlen_cons, zlen_app, !zlen_cons. change (@zlen Z []) with 0. lia.
    + intros n. cbn [plus]. erewrite loop_inl by (apply (slash_step csp H)). rewrite <- Nat.add_assoc. rewrite (fwd_fwd 1 1 c) in H1. change (1 + 1) with 2 in H1. rewrite (star_loop (c_pos c) _ H1 HF HN).
      assert (Q : fwd (zlen (encode rs)) (fwd 2 c) = c2). { unfold c2. rewrite !fwd_fwd. f_equal. lia. } rewrite Q.
      cbn [plus]. erewrite loop_inl by (eapply close_step; exact H2). fold c3. rewrite E.
      unfold c3, c2. rewrite !fwd_fwd, !zlen_cons, zlen_app, !zlen_cons.
      replace (1 + (1 + (zlen (encode rs) + (2 + zlen g)))) with (1 + (1 + (zlen (encode rs) + (1 + (1 + zlen g))))) by lia. reflexivity.
Qed.

Lemma gap_skip brk g c s r w : gap brk g -> at_ c (g ++ s) -> c_nls c = -1 -> visible s r w ->
  exists b, bol_after c brk g b /\ skipWhite false c = Ok (r, c_pos c + zlen g) (with_bol b (fwd (zlen g + w) c)).
Proof.
  intros Hg H Hn Hv. destruct (gap_loop Hg 0 H Hn) as (k & csp' & b & Hk & Hb & E). exists b. split; [exact Hb|].
  unfold skipWhite, while. pose proof (loop_fuel_enough H) as HL.
  destruct (loop_fuel c) as [|f] eqn:Ef; [lia|].
  replace (S f) with (k + S (f - k))%nat by lia. rewrite E. cbn [loop]. unfold bind. rewrite (Hv false csp' _ (at_with_bol b (at_fwd H))).
  unfold ret. rewrite <- with_bol_fwd, fwd_fwd. reflexivity.
Qed.
(** a line comment at the end of the source *)
Lemma end_gap_skip g c : end_gap g -> at_ c g -> c_nls c = -1 ->
  exists b, skipWhite false c = Ok (0, c_pos c + zlen g) (with_bol b (fwd (zlen g) c)).
Proof.
  intros Hg H Hn. destruct Hg as [brk g Hg|brk g rs Hg HF HN].
  - rewrite <- (app_nil_r g) in H. destruct (gap_skip Hg H Hn (r := 0) (w := 0)) as (b & _ & E).
    { apply visible_solid; [reflexivity|]. unfold solid, blank. lia. }
    exists b. rewrite E, Z.add_0_r. reflexivity.
  - destruct (gap_loop Hg 0 H Hn) as (k & csp' & b & Hk & _ & E). exists b. pose proof (@at_fwd c g _ H) as H1. apply (at_with_bol b) in H1.
    pose proof (at_fwd1 H1) as H2. rewrite <- (app_nil_r (encode rs)) in H2.
    unfold skipWhite, while. pose proof (encode_length rs) as HL.
    assert (HF' : (k + S (List.length rs + 1) < loop_fuel c)%nat).
    { rewrite <- (app_nil_r (g ++ "#"%ch :: encode rs)) in H. pose proof (loop_fuel_enough H) as HL'. rewrite app_length in HL'. cbn [List.length] in HL'. unfold loop_fuel in *.
      destruct H as (pre & HT & _). rewrite HT in *. rewrite !app_length in *. cbn [List.length] in *. lia. }
    remember (loop_fuel c) as f. replace f with (k + S (List.length rs + S (f - k - 2 - List.length rs)))%nat by lia. rewrite E.
    erewrite loop_inl by (eapply sharp_step; exact H1). erewrite hash_loop by eauto. cbn [loop]. unfold bind, skipWhite_step.
    pose proof (at_fwd H2) as H3. rewrite (bind_ok _ (at_next H3 (r := 0) (w := 0) eq_refl)). cbv beta iota zeta.
    change (0 =? 0) with true. change ("#"%ch =? "*"%ch) with false. cbv iota. unfold ret.
    cbn [fwd with_pos with_bol c_pos c_text c_opts c_nls c_tok c_bol c_tsp c_val c_radix c_names c_defs].
    rewrite zlen_app, zlen_cons. unfold fwd, with_bol, with_pos. cbn [c_pos c_text c_opts c_nls c_tok c_bol c_tsp c_val c_radix c_names c_defs].
    replace (c_pos c + (zlen g + (1 + zlen (encode rs)))) with (c_pos c + zlen g + 1 + zlen (encode rs)) by lia.
    replace (c_pos c + zlen g + 1 + zlen (encode rs) + 0) with (c_pos c + zlen g + 1 + zlen (encode rs)) by lia. reflexivity.
Qed.
