(** * EppProof: the lexer on the text of an EPP template *)
From Verif Require Import Base Float Tokens Ast Ctx Lexer Parser Utf8Facts SpecReader ReaderProof LexBase SpecLex GapProof LexTokens LexPunct Evals LexStrings.
From Coq Require Import Lia ZifyBool.

Definition hd_width (s : list Z) : Z := match s with r :: _ => zlen (encode_rune r) | [] => 0 end.
Lemma head_of s : Forall rune_ok s -> head_rune (encode s) = Some (hd 0 s, hd_width s).
Proof.
  intros H. destruct H as [|r s (H1 & H2 & H3) _]; [reflexivity|]. rewrite encode_cons. apply head_encode; auto.
Qed.
Lemma starts_hd s x : x <> 0 -> hd 0 s = x <-> starts_with s [x].
Proof. intros Hx. split; [destruct s; cbn; intros <-; [congruence|eexists; reflexivity]|intros (s' & ->); reflexivity]. Qed.
Lemma at_tl c r s : at_ c (encode (r :: s)) -> at_ (fwd (zlen (encode_rune r)) c) (encode s).
Proof. rewrite encode_cons. apply at_fwd. Qed.
Lemma ascii_width r : 0 <= r < 128 -> encode_rune r = [r].
Proof. intros H. unfold encode_rune, encode_rune_raw, valid_rune. replace (_ || _)%bool with true by lia. replace (r <? 128) with true by lia. reflexivity. Qed.
Lemma ok_ascii e : 0 < e < 128 -> rune_ok e.
Proof. apply rune_ok_ascii. Qed.

Lemma comment_ok b : forall p, comment p b -> Forall rune_ok b.
Proof. induction b as [|r b IH]; cbn; intros p H; [constructor|]. destruct H as (H1 & _ & H2). constructor; eauto. Qed.
Lemma text_ok src out : epp_text src out -> Forall rune_ok src /\ Forall rune_ok out.
Proof.
  induction 1 as [|src out H [I1 I2]|src out H [I1 I2]|src out N H [I1 I2]|body src out HC H [I1 I2]|r src out Hr N1 N2 H [I1 I2]];
    (split; [|first [exact I2|idtac]]); repeat (constructor; try (apply ok_ascii; lia); try assumption).
  apply Forall_app. split; [eapply comment_ok; exact HC|]. repeat (constructor; try (apply ok_ascii; lia); try assumption).
Qed.


Lemma head_more r l s : rune_ok r -> head_rune (encode (r :: l) ++ s) = Some (r, zlen (encode_rune r)).
Proof. intros (H1 & H2 & _). rewrite encode_cons, <- app_assoc. apply head_encode; auto. Qed.
Lemma at_more c r l s : at_ c (encode (r :: l) ++ s) -> at_ (fwd (zlen (encode_rune r)) c) (encode l ++ s).
Proof. rewrite encode_cons, <- app_assoc. apply at_fwd. Qed.
Lemma comment_loop b : forall n pv prev c s, at_ c (encode (b ++ ["%"%ch; ">"%ch]) ++ s) -> comment prev b ->
  (hd "%"%ch b = "%"%ch -> (pv = "%"%ch <-> prev = "%"%ch)) -> (List.length b < n)%nat ->
  loop n (fun prev =>
    '(ec, _) <- next ;;
    if ec =? 0 then ret (inr false)
    else if ec =? "%"%ch then
      '(ec, sz) <- peek ;;
      if (ec =? ">"%ch) && negb (prev =? "%"%ch) then advance sz ;; ret (inr true)
      else ret (inl ec)
    else ret (inl ec)) pv c = Ok true (fwd (zlen (encode (b ++ ["%"%ch; ">"%ch]))) c).
Proof.
  induction b as [|r b IH]; intros n pv prev c s H HC Hpv Hn; (destruct n as [|n]; [cbn in Hn; lia|]); cbn [loop]; unfold bind at 1.
  - cbn [app] in *. rewrite (bind_ok _ (at_next H (head_more _ _ (@ok_ascii "%"%ch ltac:(lia))))). change ("%"%ch =? 0) with false. change ("%"%ch =? "%"%ch) with true. cbv iota.
    apply at_more in H. change (zlen (encode_rune "%"%ch)) with 1 in *.
    rewrite (bind_ok _ (at_peek H (head_more _ _ (@ok_ascii ">"%ch ltac:(lia))))). change (">"%ch =? ">"%ch) with true. cbn [comment] in HC. cbn [hd] in Hpv. specialize (Hpv eq_refl).
    destruct (Z.eqb_spec pv "%"%ch) as [E|E]; [tauto|]. cbn [negb andb]. unfold bind, advance, modify, ret. cbv iota. change (zlen (encode_rune ">"%ch)) with 1. fold (fwd 1 (fwd 1 c)). rewrite fwd_fwd. reflexivity.
  - cbn [app] in *. cbn [comment] in HC. destruct HC as (HR & HN & HC).
    rewrite (bind_ok _ (at_next H (head_more _ _ HR))).
    destruct (Z.eqb_spec r 0); [destruct HR as (_ & _ & X); congruence|].
    apply at_more in H.
    assert (E : forall pv', (hd "%"%ch b = "%"%ch -> (pv' = "%"%ch <-> r = "%"%ch)) -> loop n (fun prev =>
    '(ec, _) <- next ;;
    if ec =? 0 then ret (inr false)
    else if ec =? "%"%ch then
      '(ec, sz) <- peek ;;
      if (ec =? ">"%ch) && negb (prev =? "%"%ch) then advance sz ;; ret (inr true)
      else ret (inl ec)
    else ret (inl ec)) pv' (fwd (zlen (encode_rune r)) c) = Ok true (fwd (zlen (encode (r :: b ++ ["%"%ch; ">"%ch]))) c)).
    { intros pv' Hpv'. erewrite IH; [|exact H|exact HC|exact Hpv'|cbn in Hn; lia]. rewrite fwd_fwd, encode_cons, zlen_app. reflexivity. }
    destruct (Z.eqb_spec r "%"%ch) as [->|Hne].
    + assert (Hh : exists x l, b ++ ["%"%ch; ">"%ch] = x :: l /\ rune_ok x /\ (x = ">"%ch -> starts_with b [">"%ch])).
      { destruct b as [|x b]; cbn [app]; eexists _, _; (split; [reflexivity|]).
        - split; [apply ok_ascii; lia|discriminate].
        - split; [exact (proj1 HC)|]. intros ->. eexists. reflexivity. }
      destruct Hh as (x & lx & Ex & Hx & Hxs). pose proof H as H'. rewrite Ex in H'. rewrite (bind_ok _ (at_peek H' (head_more _ _ Hx))).
      destruct (Z.eqb_spec x ">"%ch) as [E1|E1].
      * specialize (Hxs E1). specialize (Hpv eq_refl). destruct (Z.eqb_spec pv "%"%ch) as [E2|E2]; cbn [negb andb].
        -- unfold ret. rewrite E1. apply E. destruct Hxs as (l' & ->). cbn. intros X; discriminate X.
        -- exfalso. apply HN. split; [reflexivity|]. split; [exact Hxs|]. tauto.
      * cbn [andb]. unfold ret. apply E. destruct b as [|y b]; cbn in Ex |- *; [injection Ex as <- _; tauto|]. injection Ex as -> _. tauto.
    + unfold ret. apply E. tauto.
Qed.

(** the position after the last character that is not blank *)
Fixpoint last_solid (l n : Z) (out : list Z) : Z :=
  match out with
  | [] => l
  | r :: out' => last_solid (if (r =? 32) || (r =? 9) then l else n + zlen (encode_rune r)) (n + zlen (encode_rune r)) out'
  end.
Lemma loop_step S A n (f : S -> M (S + A)) s c s' c' : f s c = Ok (inl s') c' -> loop (Datatypes.S n) f s c = loop n f s' c'.
Proof. intros H. cbn [loop]. unfold bind. rewrite H. reflexivity. Qed.
Lemma encode_pos r : 1 <= zlen (encode_rune r).
Proof. pose proof (@encode_rune_nonempty r). destruct (encode_rune r) as [|x l]; [congruence|]. rewrite zlen_cons. pose proof (zlen_nonneg l). lia. Qed.
(** what comes after the text *)
Definition ahead (s : str) : Prop := s = [] \/ exists s', s = "<"%ch :: s'.
Lemma ahead_head src s : Forall rune_ok src -> ahead s -> exists r w, head_rune (encode src ++ s) = Some (r, w) /\ (r = hd 0 src \/ src = [] /\ (r = 0 \/ r = "<"%ch)).
Proof.
  intros HF HA. destruct HF as [|r src Hr _]; [|eexists _, _; split; [apply head_more; exact Hr|auto]].
  destruct HA as [->|(s' & ->)]; [exists 0, 0; split; [reflexivity|auto]|]. exists "<"%ch, 1. split; [reflexivity|auto].
Qed.
Ltac asc H := first [rewrite (bind_ok _ (at_next H eq_refl)) | rewrite (bind_ok _ (at_peek H eq_refl))].
Lemma epp_run src out s : epp_text src out -> ahead s -> forall n buf l c, at_ c (encode src ++ s) -> (List.length src <= n)%nat ->
  exists n', (n <= n' + List.length src)%nat /\ loop n epp_step (buf, l) c = loop n' epp_step (buf ++ encode out, last_solid l (zlen buf) out) (fwd (zlen (encode src)) c).
Proof.
  intros HT HA. induction HT as [|src out HT IH|src out HT IH|src out N HT IH|body src out HC HT IH|r src out Hr N1 N2 HT IH]; intros n buf l c H Hn.
  - exists n. cbn [List.length]. split; [lia|]. change (encode []) with (@nil Z). rewrite app_nil_r. change (zlen (@nil Z)) with 0. rewrite fwd_0. reflexivity.
  - destruct n as [|n]; [cbn in Hn; lia|]. rewrite !encode_cons_ascii in H |- * by lia. cbn [app] in H.
    pose proof (at_fwd1 H) as H1. pose proof (at_fwd1 H1) as H2. pose proof (at_fwd1 H2) as H3.
    destruct (IH n (buf ++ ["<"%ch; "%"%ch]) (zlen (buf ++ ["<"%ch; "%"%ch])) _ H3 ltac:(cbn in Hn; lia)) as (n' & Hn' & E).
    exists n'. split; [cbn; lia|]. rewrite (@loop_step _ _ n epp_step (buf, l) c (buf ++ ["<"%ch; "%"%ch], zlen (buf ++ ["<"%ch; "%"%ch])) (fwd 1 (fwd 1 (fwd 1 c)))).
    2: { unfold epp_step. asc H. cbv zeta. change ("<"%ch =? 0) with false. change ("<"%ch =? "<"%ch) with true. cbv iota. asc H1. change (negb ("%"%ch =? "%"%ch)) with false. cbv iota.
         unfold bind at 1, advance at 1, modify at 1. fold (fwd 1 (fwd 1 c)). asc H2. change ("%"%ch =? "%"%ch) with true. cbv iota. reflexivity. }
    refine (eq_trans E _). rewrite !fwd_fwd, <- app_assoc, !encode_cons_ascii by lia. rewrite !zlen_cons, zlen_app. refine (f_equal2 _ (f_equal2 pair eq_refl _) (f_equal2 fwd _ eq_refl)); [|lia].
    cbn [last_solid]. change (zlen (encode_rune "<"%ch)) with 1. change (zlen (encode_rune "%"%ch)) with 1. cbn [Z.eqb Pos.eqb orb]. change (zlen ["<"%ch; "%"%ch]) with 2.
    replace (zlen buf + 1 + 1) with (zlen buf + 2) by lia. reflexivity.
  - destruct n as [|n]; [cbn in Hn; lia|]. rewrite !encode_cons_ascii in H |- * by lia. cbn [app] in H.
    pose proof (at_fwd1 H) as H1. pose proof (at_fwd1 H1) as H2. pose proof (at_fwd1 H2) as H3.
    destruct (IH n (buf ++ ["%"%ch; ">"%ch]) (zlen (buf ++ ["%"%ch; ">"%ch])) _ H3 ltac:(cbn in Hn; lia)) as (n' & Hn' & E).
    exists n'. split; [cbn; lia|]. rewrite (@loop_step _ _ n epp_step (buf, l) c (buf ++ ["%"%ch; ">"%ch], zlen (buf ++ ["%"%ch; ">"%ch])) (fwd 1 (fwd 1 (fwd 1 c)))).
    2: { unfold epp_step. asc H. cbv zeta. change ("%"%ch =? 0) with false. change ("%"%ch =? "<"%ch) with false. change (("%"%ch =? " "%ch) || ("%"%ch =? 9)) with false. change ("%"%ch =? "%"%ch) with true. cbv iota. asc H1. change ("%"%ch =? "%"%ch) with true. cbv iota.
         unfold bind at 1, advance at 1, modify at 1. fold (fwd 1 (fwd 1 c)). asc H2. change (">"%ch =? ">"%ch) with true. cbv iota. reflexivity. }
    refine (eq_trans E _). rewrite !fwd_fwd, <- app_assoc, !encode_cons_ascii by lia. rewrite !zlen_cons, zlen_app. refine (f_equal2 _ (f_equal2 pair eq_refl _) (f_equal2 fwd _ eq_refl)); [|lia].
    cbn [last_solid]. change (zlen (encode_rune ">"%ch)) with 1. change (zlen (encode_rune "%"%ch)) with 1. cbn [Z.eqb Pos.eqb orb]. change (zlen ["%"%ch; ">"%ch]) with 2.
    replace (zlen buf + 1 + 1) with (zlen buf + 2) by lia. reflexivity.
  - destruct n as [|n]; [cbn in Hn; lia|]. rewrite !encode_cons_ascii in H |- * by lia. cbn [app] in H.
    pose proof (at_fwd1 H) as H1. pose proof (at_fwd1 H1) as H2.
    destruct (IH n (buf ++ ["%"%ch; "%"%ch]) (zlen (buf ++ ["%"%ch; "%"%ch])) _ H2 ltac:(cbn in Hn; lia)) as (n' & Hn' & E).
    exists n'. split; [cbn; lia|]. destruct (ahead_head (proj1 (text_ok HT)) HA) as (x & w & Eh & Hx). rewrite (@loop_step _ _ n epp_step (buf, l) c (buf ++ ["%"%ch; "%"%ch], zlen (buf ++ ["%"%ch; "%"%ch])) (fwd 1 (fwd 1 c))).
    2: { unfold epp_step. asc H. cbv zeta. change ("%"%ch =? 0) with false. change ("%"%ch =? "<"%ch) with false. change (("%"%ch =? " "%ch) || ("%"%ch =? 9)) with false. change ("%"%ch =? "%"%ch) with true. cbv iota. asc H1. change ("%"%ch =? "%"%ch) with true. cbv iota.
         unfold bind at 1, advance at 1, modify at 1. fold (fwd 1 (fwd 1 c)). rewrite (bind_ok _ (at_peek H2 Eh)).
         assert (x <> ">"%ch) as Hne. { intros ->. destruct Hx as [Hx|(_ & [Hx|Hx])]; [|discriminate|discriminate]. apply N. apply starts_hd; [lia|auto]. }
         destruct (Z.eqb_spec x ">"%ch); [congruence|]. reflexivity. }
    refine (eq_trans E _). rewrite !fwd_fwd, <- app_assoc, !encode_cons_ascii by lia. rewrite !zlen_cons, zlen_app. refine (f_equal2 _ (f_equal2 pair eq_refl _) (f_equal2 fwd _ eq_refl)); [|lia].
    cbn [last_solid]. change (zlen (encode_rune "%"%ch)) with 1. cbn [Z.eqb Pos.eqb orb]. change (zlen ["%"%ch; "%"%ch]) with 2.
    replace (zlen buf + 1 + 1) with (zlen buf + 2) by lia. reflexivity.
  - destruct n as [|n]; [cbn in Hn; lia|].
    change ("<"%ch :: "%"%ch :: "#"%ch :: body ++ "%"%ch :: ">"%ch :: src) with ("<"%ch :: "%"%ch :: "#"%ch :: body ++ ["%"%ch; ">"%ch] ++ src) in *. rewrite (app_assoc body) in *.
    rewrite !encode_cons_ascii, encode_app in H |- * by lia. cbn [app] in H. rewrite <- app_assoc in H.
    pose proof (at_fwd1 H) as H1. pose proof (at_fwd1 H1) as H2. pose proof (at_fwd1 H2) as H3. pose proof (at_fwd H3) as H4.
    destruct (IH n buf l _ H4 ltac:(cbn in Hn; rewrite !app_length in Hn; lia)) as (n' & Hn' & E).
    exists n'. split; [cbn; rewrite !app_length; lia|]. rewrite (@loop_step _ _ n epp_step (buf, l) c (buf, l) (fwd (zlen (encode (body ++ ["%"%ch; ">"%ch]))) (fwd 1 (fwd 1 (fwd 1 c))))).
    2: { unfold epp_step. asc H. cbv zeta. change ("<"%ch =? 0) with false. change ("<"%ch =? "<"%ch) with true. cbv iota. asc H1. change (negb ("%"%ch =? "%"%ch)) with false. cbv iota.
         unfold bind at 1, advance at 1, modify at 1. fold (fwd 1 (fwd 1 c)). asc H2. change ("#"%ch =? "%"%ch) with false. change ("#"%ch =? "#"%ch) with true. cbv iota.
         unfold bind at 1, advance at 1, modify at 1. fold (fwd 1 (fwd 1 (fwd 1 c))). unfold epp_comment, while. unfold bind at 1.
         rewrite (@comment_loop body _ "#"%ch "#"%ch _ _ H3 HC); [reflexivity|tauto|].
         rewrite encode_app, <- app_assoc in H3. pose proof (loop_fuel_enough H3). pose proof (encode_length body). lia. }
    refine (eq_trans E _). rewrite !fwd_fwd, !zlen_cons, zlen_app. refine (f_equal2 _ eq_refl (f_equal2 fwd _ eq_refl)). lia.
  - destruct n as [|n]; [cbn in Hn; lia|]. pose proof (at_more H) as H1. destruct (ahead_head (proj1 (text_ok HT)) HA) as (x & w & Eh & Hx).
    destruct (IH n (buf ++ encode_rune r) (if (r =? 32) || (r =? 9) then l else zlen (buf ++ encode_rune r)) _ H1 ltac:(cbn in Hn; lia)) as (n' & Hn' & E).
    exists n'. split; [cbn; lia|]. rewrite (@loop_step _ _ n epp_step (buf, l) c (buf ++ encode_rune r, if (r =? 32) || (r =? 9) then l else zlen (buf ++ encode_rune r)) (fwd (zlen (encode_rune r)) c)).
    2: { unfold epp_step. rewrite (bind_ok _ (at_next H (head_more _ _ Hr))). cbv zeta. destruct (Z.eqb_spec r 0) as [->|H0]; [destruct Hr as (_ & _ & X); congruence|].
      change (" "%ch) with 32.
      destruct (Z.eqb_spec r "<"%ch) as [->|Hlt].
      { rewrite (bind_ok _ (at_peek H1 Eh)). destruct (Z.eqb_spec x "%"%ch) as [->|E1].
        - destruct Hx as [Hx|(_ & [Hx|Hx])]; [|discriminate|discriminate]. destruct N1. symmetry in Hx. apply starts_hd in Hx; [|lia]. destruct Hx as (s' & ->). eexists. reflexivity.
        - reflexivity. }
      destruct ((r =? 32) || (r =? 9)); [reflexivity|].
      destruct (Z.eqb_spec r "%"%ch) as [->|Hpc].
      { rewrite (bind_ok _ (at_peek H1 Eh)). destruct (Z.eqb_spec x "%"%ch) as [->|E1].
        - destruct Hx as [Hx|(_ & [Hx|Hx])]; [|discriminate|discriminate]. destruct N2. symmetry in Hx. apply starts_hd in Hx; [|lia]. destruct Hx as (s' & ->). eexists. reflexivity.
        - reflexivity. }
      reflexivity. }
    refine (eq_trans E _). rewrite fwd_fwd, !encode_cons, !zlen_app, <- app_assoc. cbn [last_solid]. reflexivity.
Qed.

Lemma last_solid_app b : forall a l n, last_solid l n (a ++ b) = last_solid (last_solid l n a) (n + zlen (encode a)) b.
Proof.
  induction a as [|r a IH]; intros l n; cbn [app last_solid].
  - change (zlen (encode [])) with 0. rewrite Z.add_0_r. reflexivity.
  - rewrite IH, encode_cons, zlen_app, Z.add_assoc. reflexivity.
Qed.
Lemma last_solid_blanks b : forall l n, blanks b -> last_solid l n b = l.
Proof.
  induction b as [|r b IH]; intros l n H; [reflexivity|]. inversion H as [|? ? Hr Hb]; subst. cbn [last_solid].
  replace ((r =? 32) || (r =? 9)) with true by lia. apply IH. exact Hb.
Qed.
Lemma trimmed_slice out0 out : trimmed out0 out -> slice (encode out0) 0 (last_solid 0 0 out0) = encode out.
Proof.
  intros (b & -> & Hb & Hl). rewrite last_solid_app, last_solid_blanks by exact Hb.
  assert (E : last_solid 0 0 out = zlen (encode out)).
  { destruct out as [|x out] using rev_ind; [reflexivity|]. destruct (Hl out x eq_refl) as [N1 N2]. rewrite last_solid_app, encode_app, zlen_app. cbn [last_solid].
    replace ((x =? 32) || (x =? 9)) with false by lia. rewrite encode_cons. change (encode []) with (@nil Z). rewrite app_nil_r. lia. }
  rewrite E. unfold slice. rewrite encode_app. cbn [Z.to_nat skipn]. replace (Z.to_nat (zlen (encode out) - 0)) with (List.length (encode out)) by (unfold zlen; lia).
  rewrite firstn_app, Nat.sub_diag, firstn_all, firstn_O, app_nil_r. reflexivity.
Qed.
(** the context after the text *)
Definition after_text (buf s : str) (c : ctx) : ctx :=
  match s, buf with [], [] => with_tok TEnd VNil c | _, _ => with_tok TRenderString (VStr buf) c end.
Definition no_text (buf s : str) : bool := match s, buf with _ :: _, [] => true | _, _ => false end.
Lemma tag_ahead s : tag_or_end s -> ahead s.
Proof. intros [->|(s' & -> & _)]; [left; reflexivity|right; eexists; reflexivity]. Qed.
Lemma with_pos_fwd n c : with_pos (c_pos c) (fwd n c) = c.
Proof. destruct c. reflexivity. Qed.
Lemma epp_loop src out s c : said src s out -> tag_or_end s -> at_ c (encode src ++ s) ->
  while epp_step ([], 0) c = Ok (no_text (encode out) s) (after_text (encode out) s (fwd (zlen (encode src)) c)).
Proof.
  intros (out0 & HT & HS) HG H. unfold while.
  pose proof (loop_fuel_enough H) as HF. pose proof (encode_length src) as HL.
  destruct (@epp_run src out0 s HT (tag_ahead HG) (loop_fuel c) [] 0 c H ltac:(lia)) as (n' & Hn' & E).
  refine (eq_trans E _). clear E. destruct n' as [|n']; [lia|]. cbn [app]. change (zlen (@nil Z)) with 0.
  pose proof (at_fwd H) as H1. set (c1 := fwd (zlen (encode src)) c) in *. clearbody c1. clear H HF Hn' HL.
  cbn [loop]. unfold bind at 1. unfold epp_step.
  destruct HG as [->|(s' & -> & HG)].
  { rewrite (bind_ok _ (at_next H1 eq_refl)). change (0 =? 0) with true. cbv iota zeta. rewrite fwd_0.
    destruct HS as [((y & X) & _)|(_ & ->)]; [discriminate X|]. unfold no_text, after_text. destruct (encode out0); reflexivity. }
  rewrite (bind_ok _ (at_next H1 eq_refl)). change ("<"%ch =? 0) with false. change ("<"%ch =? "<"%ch) with true. cbv iota zeta.
  pose proof (at_fwd1 H1) as H2. rewrite (bind_ok _ (at_peek H2 eq_refl)). change (negb ("%"%ch =? "%"%ch)) with false. cbv iota.
  unfold bind at 1, advance at 1, modify at 1. fold (fwd 1 (fwd 1 c1)). pose proof (at_fwd1 H2) as H3.
  assert (P : forall n, with_pos (c_pos c1) (fwd n (fwd 1 (fwd 1 c1))) = c1) by (intros n; rewrite !fwd_fwd; apply with_pos_fwd).
  assert (Q : with_pos (c_pos c1) (fwd 1 (fwd 1 c1)) = c1) by (rewrite fwd_fwd; apply with_pos_fwd).
  assert (F : forall buf c2, with_pos (c_pos c1) c2 = c1 ->
    (setPos (c_pos c1) ;; settokenValue TRenderString (VStr buf) ;; ret (inr (match buf with [] => true | _ => false end) : (str * Z) + bool)) c2
      = Ok (inr (match buf with [] => true | _ => false end)) (with_tok TRenderString (VStr buf) c1)).
  { intros buf c2 X. unfold bind, setPos, settokenValue, modify, ret. rewrite X. reflexivity. }
  assert (R : forall z, after_text (encode out) ("<"%ch :: z) c1 = with_tok TRenderString (VStr (encode out)) c1) by reflexivity. rewrite R.
  assert (R2 : forall z, no_text (encode out) ("<"%ch :: z) = match encode out with [] => true | _ => false end) by reflexivity. rewrite R2. clear R R2.
  destruct HG as [->|(x & s'' & -> & Hx & N1 & N2)].
  - destruct HS as [((y & X) & _)|(_ & ->)]; [discriminate X|].
    rewrite (bind_ok _ (at_peek H3 eq_refl)). change (0 =? "%"%ch) with false. change (0 =? "#"%ch) with false. change (0 =? "-"%ch) with false. change (0 =? "="%ch) with false. cbv iota.
    rewrite (F _ _ Q). reflexivity.
  - rewrite (bind_ok _ (at_peek H3 (@head_ascii x s'' ltac:(lia)))). destruct (Z.eqb_spec x "%"%ch); [congruence|]. destruct (Z.eqb_spec x "#"%ch); [congruence|].
    destruct (Z.eqb_spec x "-"%ch) as [->|N3].
    + destruct HS as [(_ & HS)|(X & _)]; [|destruct X; eexists; reflexivity]. unfold bind at 1, advance at 1, modify at 1. fold (fwd 1 (fwd 1 (fwd 1 c1))).
      rewrite (trimmed_slice HS). rewrite (F _ _ (P 1)). reflexivity.
    + destruct HS as [((y & X) & _)|(_ & ->)]; [cbn in X; congruence|].
      destruct (Z.eqb_spec x "="%ch); [unfold bind at 1, advance at 1, modify at 1; fold (fwd 1 (fwd 1 (fwd 1 c1))); rewrite (F _ _ (P 1)); reflexivity|].
      rewrite (F _ _ Q). reflexivity.
Qed.
