(** * PnProof: proofs of C02, C03, C04 *)
From Verif Require Import Base Float Pn Utf8Facts SpecReader ReaderProof SpecPn.
From Coq Require Import ZifyBool.

(** *** C02 *)

Lemma unquote_cons b s :
  b <> 34 -> b <> 92 ->
  unquote (b :: s) = match unquote s with Some (x, rest) => Some (b :: x, rest) | None => None end.
Proof. intros H1 H2. cbn [unquote]. bdec. reflexivity. Qed.

Lemma unquote_plain s t :
  Forall (fun x => x <> 34 /\ x <> 92) s ->
  unquote (s ++ t) = match unquote t with Some (x, rest) => Some (s ++ x, rest) | None => None end.
Proof.
  induction s as [|b s IH]; intros H.
  - cbn [app]. destruct (unquote t) as [[y r]|]; reflexivity.
  - inversion_clear H as [|? ? [Hb1 Hb2] Hs]. cbn [app]. rewrite unquote_cons, IH by assumption.
    destruct (unquote t) as [[y r]|]; reflexivity.
Qed.

Lemma div64_small c : 0 <= c < 32 -> c / 64 = 0.
Proof. intros. apply Z.div_small. lia. Qed.

Lemma unquote_rune r t :
  valid_rune r = true ->
  unquote (quote_rune r ++ t)
  = match unquote t with Some (x, rest) => Some (encode_rune r ++ x, rest) | None => None end.
Proof.
  intros Hv. pose proof (valid_rune_range Hv) as [Hr _]. unfold quote_rune.
  destruct (Z.eqb_spec r 9) as [->|N1]; [reflexivity|].
  destruct (Z.eqb_spec r 10) as [->|N2]; [reflexivity|].
  destruct (Z.eqb_spec r 13) as [->|N3]; [reflexivity|].
  destruct (Z.eqb_spec r 34) as [->|N4]; [reflexivity|].
  destruct (Z.eqb_spec r 92) as [->|N5]; [reflexivity|].
  destruct (Z.ltb_spec r 32) as [Hlt|Hge].
  - rewrite encode_ascii by lia.
    replace (lit "\o") with [92; "o"%ch] by reflexivity. cbn [app].
    cbn [unquote]. change ((92 =? 34)) with false. change (92 =? 92) with true.
    change ("o"%ch =? "t"%ch) with false. change ("o"%ch =? "n"%ch) with false.
    change ("o"%ch =? "r"%ch) with false. change ("o"%ch =? 34) with false.
    change ("o"%ch =? 92) with false. change ("o"%ch =? "o"%ch) with true. cbv iota.
    pose proof (Z.div_mod r 8 ltac:(lia)) as E1.
    pose proof (Z.mod_pos_bound r 8 ltac:(lia)) as B1.
    assert (B2: 0 <= r / 8 < 8) by (split; [apply Z.div_pos|apply Z.div_lt_upper_bound]; lia).
    rewrite (div64_small (conj (proj1 Hr) Hlt)), (Z.mod_small (r / 8) 8) by lia.
    unfold oct. bdec. cbn [andb]. bdec. cbn [andb].
    replace ((48 + 0 - 48) * 64 + (48 + r / 8 - 48) * 8 + (48 + r mod 8 - 48)) with r by lia.
    reflexivity.
  - apply unquote_plain.
    destruct (encode_head Hv) as (b & u & -> & Ha & Hb).
    destruct (Z.lt_ge_cases r 128) as [Hl|Hg].
    + destruct (Ha Hl) as [-> ->]. repeat constructor; assumption.
    + destruct (Hb Hg) as [Hb1 Hu]. constructor; [lia|].
      eapply Forall_impl; [|exact Hu]. intros x Hx. cbn in *. lia.
Qed.

Lemma unquote_quote rs t :
  valid_runes rs = true -> unquote (flat_map quote_rune rs ++ 34 :: t) = Some (encode rs, t).
Proof.
  induction rs as [|r rs IH]; intros Hv.
  - reflexivity.
  - cbn [valid_runes forallb] in Hv. apply andb_true_iff in Hv as [Hr Hv].
    cbn [flat_map]. rewrite <- app_assoc, unquote_rune, IH by assumption. reflexivity.
Qed.

Lemma doubleQuote_encode rs t :
  valid_runes rs = true -> exists body,
    doubleQuote (encode rs) ++ t = 34 :: body /\ unquote body = Some (encode rs, t).
Proof.
  intros Hv. unfold doubleQuote. rewrite (runes_encode Hv).
  exists (flat_map quote_rune rs ++ 34 :: t). split.
  - cbn [app]. rewrite <- app_assoc. reflexivity.
  - apply unquote_quote, Hv.
Qed.

Theorem quote_reversible s :
  valid_utf8 s -> exists body, doubleQuote s = 34 :: body /\ unquote body = Some (s, []).
Proof.
  intros (rs & Hs & ->). destruct (@doubleQuote_encode rs [] (proj1 (scalars_valid rs) Hs)) as (b & E & U).
  rewrite app_nil_r in E. eauto.
Qed.

Lemma decode_nonneg_ascii s r w :
  Forall (fun b => 0 <= b <= 255) s -> decode_rune s = (r, w) -> s <> [] -> valid_rune r = true.
Proof.
  intros HF HD Hne. destruct (Z.eq_dec r rune_error) as [->|N]; [reflexivity|].
  apply (@decode_sound s r w HF HD Hne (or_introl N)).
Qed.

Lemma runes_valid n : forall s,
  Forall (fun b => 0 <= b <= 255) s -> valid_runes (runes_fuel n s) = true.
Proof.
  induction n as [|n IH]; intros s HF; [reflexivity|].
  cbn [runes_fuel]. destruct s as [|b s]; [reflexivity|].
  destruct (decode_rune (b :: s)) as [r w] eqn:E. cbn [valid_runes forallb].
  rewrite (decode_nonneg_ascii HF E) by discriminate. cbn [andb].
  apply IH. rewrite <- (firstn_skipn (Z.to_nat w)) in HF. apply Forall_app in HF. apply HF.
Qed.

Lemma quote_rune_printable r : valid_rune r = true -> Forall (fun b => 32 <= b) (quote_rune r).
Proof.
  intros Hv. pose proof (valid_rune_range Hv) as [Hr _]. unfold quote_rune.
  destruct (Z.eqb_spec r 9) as [->|N1]; [repeat constructor; discriminate|].
  destruct (Z.eqb_spec r 10) as [->|N2]; [repeat constructor; discriminate|].
  destruct (Z.eqb_spec r 13) as [->|N3]; [repeat constructor; discriminate|].
  destruct (Z.eqb_spec r 34) as [->|N4]; [repeat constructor; discriminate|].
  destruct (Z.eqb_spec r 92) as [->|N5]; [repeat constructor; discriminate|].
  destruct (Z.ltb_spec r 32) as [Hlt|Hge].
  - pose proof (Z.mod_pos_bound r 8 ltac:(lia)) as B1.
    pose proof (Z.mod_pos_bound (r / 8) 8 ltac:(lia)) as B2.
    rewrite div64_small by lia.
    cbn [lit app]. repeat (apply Forall_cons; [first [discriminate|lia]|]); apply Forall_nil.
  - destruct (encode_head Hv) as (b & u & -> & Ha & Hb).
    destruct (Z.lt_ge_cases r 128) as [Hl|Hg].
    + destruct (Ha Hl) as [-> ->]. repeat constructor; lia.
    + destruct (Hb Hg) as [Hb1 Hu]. constructor; [lia|].
      eapply Forall_impl; [|exact Hu]. intros x Hx. cbn in *. lia.
Qed.

Theorem quote_printable s :
  Forall (fun b => 0 <= b <= 255) s -> Forall (fun b => 32 <= b) (doubleQuote s).
Proof.
  intros HF. unfold doubleQuote. constructor; [lia|]. apply Forall_app. split; [|repeat constructor; lia].
  pose proof (runes_valid (List.length s) HF) as Hv. fold (runes s) in Hv.
  induction (runes s) as [|r rs IH]; [constructor|].
  cbn [valid_runes forallb] in Hv. apply andb_true_iff in Hv as [Hr Hv].
  cbn [flat_map]. apply Forall_app. split; [apply quote_rune_printable, Hr|apply IH, Hv].
Qed.

(** *** Induction over PN trees *)
Section PnInd.
  Variable P : pn -> Prop.
  Hypothesis HLit : forall v, P (PLit v).
  Hypothesis HList : forall l, Forall P l -> P (PList l).
  Hypothesis HMap : forall es, Forall (fun e => P (snd e)) es -> P (PMap es).
  Hypothesis HCall : forall n l, Forall P l -> P (PCall n l).
  Fixpoint pn_ind' (p : pn) : P p :=
    let fix go (l : list pn) : Forall P l :=
        match l with [] => Forall_nil _ | x :: l' => Forall_cons _ (pn_ind' x) (go l') end in
    let fix gom (l : list (str * pn)) : Forall (fun e => P (snd e)) l :=
        match l with [] => Forall_nil _ | x :: l' => Forall_cons _ (pn_ind' (snd x)) (gom l') end in
    match p with
    | PLit v => HLit v
    | PList l => HList (go l)
    | PMap es => HMap (gom es)
    | PCall n l => HCall n (go l)
    end.
End PnInd.

(** *** C04 *)
Theorem toData_lossless p : of_data (toData p) = Some p.
Proof.
  induction p as [v|l IH|es IH|n l IH] using pn_ind'; cbn [toData of_data].
  - reflexivity.
  - match goal with |- match ?x with _ => _ end = _ => assert (H: x = Some l); [|now rewrite H] end.
    induction IH as [|x l Hx Hl IHl]; [reflexivity|]. cbn [map]. now rewrite Hx, IHl.
  - change (str_eqb (lit "#") (lit "^")) with false. change (str_eqb (lit "#") (lit "#")) with true. cbv iota.
    match goal with |- match ?x with _ => _ end = _ => assert (H: x = Some es); [|now rewrite H] end.
    induction IH as [|[k x] l Hx Hl IHl]; [reflexivity|]. cbn [flat_map app fst snd] in *. now rewrite Hx, IHl.
  - change (str_eqb (lit "^") (lit "^")) with true. cbv iota.
    match goal with |- match ?x with _ => _ end = _ => assert (H: x = Some l); [|now rewrite H] end.
    induction IH as [|x l Hx Hl IHl]; [reflexivity|]. cbn [map]. now rewrite Hx, IHl.
Qed.

(** *** Decimal integers *)
Lemma digits_value_app a b n :
  digits_value a = Some n -> b <> [] ->
  Forall (fun c => 48 <= c <= 57) b ->
  digits_value (a ++ b) = Some (fold_left (fun acc c => acc * 10 + (c - 48)) b n).
Proof.
  intros Ha Hb HF. destruct a as [|x a]; [discriminate|].
  unfold digits_value in *. cbn [app]. rewrite app_comm_cons, fold_left_app.
  rewrite Ha. clear Ha Hb. revert n. induction HF as [|c b Hc HF IH]; intros n; [reflexivity|].
  cbn [fold_left]. bdec. cbn [andb]. apply IH.
Qed.

Definition dig_fold (s : str) (a : option Z) : option Z :=
  fold_left (fun acc c => match acc with
                          | Some n => if (48 <=? c) && (c <=? 57) then Some (n * 10 + (c - 48)) else None
                          | None => None
                          end) s a.

Lemma format_digits_value fuel : forall n acc a,
  0 <= n -> (n < 2 ^ Z.of_nat fuel) ->
  (0 < fuel)%nat ->
  exists k, dig_fold (format_digits fuel n acc) (Some a) = dig_fold acc (Some (a * 10 ^ k + n)) /\ 0 <= k.
Proof.
  induction fuel as [|fuel IH]; intros n acc a H0 Hn Hf; [lia|].
  cbn [format_digits].
  pose proof (Z.div_mod n 10 ltac:(lia)) as E.
  pose proof (Z.mod_pos_bound n 10 ltac:(lia)) as B.
  assert (Hstep: forall x, dig_fold ((48 + n mod 10) :: acc) (Some x) = dig_fold acc (Some (x * 10 + n mod 10))).
  { intros x. unfold dig_fold. cbn [fold_left]. bdec. cbn [andb]. do 2 f_equal. lia. }
  change "0"%ch with 48.
  destruct (Z.eqb_spec (n / 10) 0) as [Hz|Hnz].
  - exists 1. rewrite Hstep. split; [|lia]. do 2 f_equal. lia.
  - assert (0 < n / 10) by (pose proof (Z.div_pos n 10 H0); lia).
    assert (Hlt: n / 10 < 2 ^ Z.of_nat fuel).
    { rewrite Nat2Z.inj_succ, Z.pow_succ_r in Hn by lia.
      apply Z.div_lt_upper_bound; [lia|]. pose proof (Z.pow_pos_nonneg 2 (Z.of_nat fuel)). lia. }
    destruct (IH (n / 10) ((48 + n mod 10) :: acc) a) as (k & Hk & Hk0); [lia|exact Hlt| |].
    { destruct fuel; [cbn in Hlt; lia|lia]. }
    rewrite Hk, Hstep. exists (k + 1). split; [|lia].
    rewrite Z.pow_add_r by lia. do 2 f_equal. lia.
Qed.

Lemma format_digits_chars fuel : forall n acc,
  Forall (fun c => 48 <= c <= 57) acc -> 0 <= n ->
  Forall (fun c => 48 <= c <= 57) (format_digits fuel n acc).
Proof.
  induction fuel as [|fuel IH]; intros n acc HF H0; [exact HF|].
  cbn [format_digits]. pose proof (Z.mod_pos_bound n 10 ltac:(lia)) as B.
  assert (Forall (fun c => 48 <= c <= 57) (("0"%ch + n mod 10) :: acc)) by (constructor; [lia|exact HF]).
  destruct (n / 10 =? 0); [assumption|]. apply IH; [assumption|apply Z.div_pos; lia].
Qed.

Lemma format_digits_nonempty fuel : forall n acc, acc <> [] \/ (0 < fuel)%nat -> format_digits fuel n acc <> [].
Proof.
  induction fuel as [|fuel IH]; intros n acc H; cbn [format_digits]; [destruct H; [assumption|lia]|].
  destruct (n / 10 =? 0); [discriminate|]. apply IH. left. discriminate.
Qed.

Lemma log2_bound n : 0 <= n -> n < 2 ^ Z.of_nat (S (Z.to_nat (Z.log2 n))).
Proof.
  intros H. rewrite Nat2Z.inj_succ, Z2Nat.id by apply Z.log2_nonneg.
  destruct (Z.eq_dec n 0) as [->|N]; [reflexivity|].
  apply Z.log2_spec. lia.
Qed.

Lemma format_nat_value n : 0 <= n -> digits_value (format_nat n) = Some n.
Proof.
  intros H. unfold format_nat.
  destruct (@format_digits_value (S (Z.to_nat (Z.log2 n))) n [] 0 H (log2_bound H) ltac:(lia)) as (k & Hk & _).
  assert (Hne: format_digits (S (Z.to_nat (Z.log2 n))) n [] <> []) by (apply format_digits_nonempty; right; lia).
  destruct (format_digits (S (Z.to_nat (Z.log2 n))) n []) as [|z s]; [congruence|].
  unfold digits_value. fold (dig_fold (z :: s) (Some 0)). rewrite Hk. reflexivity.
Qed.

Lemma format_nat_chars n : 0 <= n -> Forall (fun c => 48 <= c <= 57) (format_nat n).
Proof. intros. apply format_digits_chars; [constructor|assumption]. Qed.

Lemma format_nat_nonempty n : format_nat n <> [].
Proof. apply format_digits_nonempty. right. lia. Qed.

Lemma int_value_format z : int_value (format_int z) = Some z.
Proof.
  unfold format_int. destruct (Z.ltb_spec z 0) as [H|H].
  - cbn [int_value]. change ("-"%ch =? "-"%ch) with true. cbv iota.
    rewrite format_nat_value by lia. f_equal. lia.
  - pose proof (format_nat_value H) as Hv. pose proof (format_nat_chars H) as Hc.
    destruct (format_nat z) as [|c s]; [discriminate|].
    inversion_clear Hc as [|? ? Hc0 Hc1]. cbn [int_value]. change "-"%ch with 45. bdec. exact Hv.
Qed.

(** *** C03 *)
Definition stops (t : str) : Prop := t = [] \/ exists c t', t = c :: t' /\ delimiter c = true.

Lemma word_app w t : token_name w -> stops t -> word (w ++ t) = (w, t).
Proof.
  intros Hw Ht. induction Hw as [|c w Hc Hw IH].
  - cbn [app]. destruct Ht as [->|(c & t' & -> & Hc)]; cbn [word]; [reflexivity|now rewrite Hc].
  - cbn [app word]. now rewrite Hc, IH.
Qed.

Lemma digit_not_delim c : 45 <= c <= 57 -> delimiter c = false.
Proof. unfold delimiter. lia. Qed.

Lemma format_int_token z : token_name (format_int z).
Proof.
  unfold format_int, token_name. destruct (Z.ltb_spec z 0).
  - constructor; [reflexivity|]. eapply Forall_impl; [|apply format_nat_chars; lia].
    intros c Hc. cbn in Hc. apply digit_not_delim. lia.
  - eapply Forall_impl; [|apply format_nat_chars; lia].
    intros c Hc. cbn in Hc. apply digit_not_delim. lia.
Qed.

Lemma format_int_head z : exists c s, format_int z = c :: s /\ 45 <= c <= 57.
Proof.
  unfold format_int. destruct (Z.ltb_spec z 0) as [H|H].
  - eexists; eexists; split; [reflexivity|]. cbn. lia.
  - pose proof (format_nat_chars H) as Hc. destruct (format_nat z) as [|c s] eqn:E; [now apply format_nat_nonempty in E|].
    inversion_clear Hc. exists c, s. split; [reflexivity|lia].
Qed.

(** a text starting like a word is read as an atom *)
Lemma read_word n c w t p :
  (c <> 34 /\ c <> "["%ch /\ c <> "{"%ch /\ c <> "("%ch) ->
  token_name (c :: w) -> stops t -> atom (c :: w) = Some p ->
  read (S n) ((c :: w) ++ t) = Some (p, t).
Proof.
  intros (H1 & H2 & H3 & H4) Hw Ht Ha. 
  pose proof (word_app Hw Ht) as E. cbn [app] in *. cbn [read].
  rewrite (proj2 (Z.eqb_neq _ _) H1), (proj2 (Z.eqb_neq _ _) H2), (proj2 (Z.eqb_neq _ _) H3), (proj2 (Z.eqb_neq _ _) H4).
  rewrite E, Ha. reflexivity.
Qed.

(** size: what the fuel must cover *)
Fixpoint psize (p : pn) : nat :=
  match p with
  | PLit _ => 1
  | PList l => S (List.length l + list_sum (map psize l))
  | PMap es => S (List.length es + list_sum (map (fun e => psize (snd e)) es))
  | PCall _ l => S (List.length l + list_sum (map psize l))
  end.

Definition good (p : pn) : Prop :=
  forall n t, (psize p <= n)%nat -> stops t -> read n (format p ++ t) = Some (p, t).

(** the first byte of a formatted tree is no delimiter and no closing bracket *)
Lemma format_head p : faithful p -> exists c s, format p = c :: s /\ delimiter c = false.
Proof.
  intros H. destruct H as [|b|z|s _|l _|es _|nm l _ _]; cbn [format formatLit].
  - eexists; eexists; split; [reflexivity|reflexivity].
  - destruct b; eexists; eexists; split; reflexivity.
  - destruct (format_int_head z) as (c & s & -> & Hc). exists c, s. split; [reflexivity|].
    apply digit_not_delim, Hc.
  - eexists; eexists; split; reflexivity.
  - eexists; eexists; split; reflexivity.
  - eexists; eexists; split; reflexivity.
  - eexists; eexists; split; reflexivity.
Qed.

Lemma elements_app (A : Type) (fmt : A -> str) (elem : str -> option (A * str)) close t :
  delimiter close = true -> close <> 32 ->
  forall l n, l <> [] -> (List.length l <= n)%nat ->
  Forall (fun x => forall t, stops t -> elem (fmt x ++ t) = Some (x, t)) l ->
  elements n elem close (sep_space (map fmt l) ++ close :: t) = Some (l, t).
Proof.
  intros Hc Hc32 l. induction l as [|x l IH]; intros n Hne Hn HF; [congruence|].
  inversion_clear HF as [|? ? Hx HF']. destruct n as [|n]; [cbn in Hn; lia|].
  destruct l as [|y l].
  - cbn [map sep_space elements]. rewrite Hx by (right; eauto).
    rewrite Z.eqb_refl. reflexivity.
  - cbn [elements]. cbn [map]. 
    replace (sep_space (fmt x :: fmt y :: map fmt l)) with (fmt x ++ 32 :: sep_space (map fmt (y :: l))) by reflexivity.
    rewrite <- app_assoc. rewrite Hx by (right; eexists; eexists; split; [reflexivity|reflexivity]).
    cbn [app]. rewrite (proj2 (Z.eqb_neq 32 close)) by congruence. rewrite Z.eqb_refl.
    rewrite IH; [reflexivity|discriminate|cbn in Hn |- *; lia|exact HF'].
Qed.

Lemma list_sum_in (A : Type) (f : A -> nat) l x : In x l -> (f x <= list_sum (map f l))%nat.
Proof.
  induction l as [|y l IH]; intros H; [destruct H|]. change (list_sum (map f (y :: l))) with (f y + list_sum (map f l))%nat. destruct H as [->|H]; [lia|]. specialize (IH H). lia.
Qed.

Lemma sep_space_head (A : Type) (fmt : A -> str) x l c s t :
  fmt x = c :: s -> exists u, sep_space (map fmt (x :: l)) ++ t = c :: u.
Proof. intros E. cbn [map sep_space]. destruct (map fmt l); rewrite E; cbn [app]; eauto. Qed.

Lemma bracketed_app (A : Type) (fmt : A -> str) (elem : str -> option (A * str)) close t n l :
  delimiter close = true -> close <> 32 -> (List.length l <= n)%nat ->
  Forall (fun x => exists c s, fmt x = c :: s /\ c <> close) l ->
  Forall (fun x => forall t, stops t -> elem (fmt x ++ t) = Some (x, t)) l ->
  bracketed n elem close (sep_space (map fmt l) ++ close :: t) = Some (l, t).
Proof.
  intros Hc H32 Hn Hh HF. destruct l as [|x l].
  { cbn [map sep_space app bracketed]. now rewrite Z.eqb_refl. }
  inversion Hh as [|? ? (c & s & E & Hne) Hh']; subst.
  pose proof (@elements_app _ fmt elem close t Hc H32 (x :: l) n ltac:(discriminate) Hn HF) as HE.
  destruct (@sep_space_head _ fmt x l c s (close :: t) E) as (u & Eu).
  unfold bracketed. rewrite Eu in *. rewrite (proj2 (Z.eqb_neq _ _) Hne). exact HE.
Qed.

Lemma read_format p : faithful p -> good p.
Proof.
  induction p as [v|l IH|es IH|nm l IH] using pn_ind'; intros HF n t Hn Ht.
  - destruct n as [|n]; [cbn in Hn; lia|].
    inversion HF as [|b|z|s Hs| | |]; subst; cbn [format formatLit].
    + apply read_word; auto; try (repeat split; discriminate). repeat constructor.
    + destruct b; apply read_word; auto; try (repeat split; discriminate); repeat constructor.
    + destruct (format_int_head z) as (c & s & E & Hc).
      pose proof (format_int_token z) as Htok. pose proof (int_value_format z) as Hv.
      rewrite E in *. apply read_word; auto; try lia.
      unfold atom.
      destruct (str_eqb_spec (c :: s) (lit "nil")) as [X|_]; [exfalso; injection X as -> _; lia|].
      destruct (str_eqb_spec (c :: s) (lit "true")) as [X|_]; [exfalso; injection X as -> _; lia|].
      destruct (str_eqb_spec (c :: s) (lit "false")) as [X|_]; [exfalso; injection X as -> _; lia|].
      now rewrite Hv.
    + destruct Hs as (rs & Hrs & ->).
      destruct (@doubleQuote_encode rs t (proj1 (scalars_valid rs) Hrs)) as (b & -> & U).
      cbn [read]. rewrite Z.eqb_refl, U. reflexivity.
  - inversion HF as [| | | |l' Hl| |]; subst. destruct n as [|n]; [cbn in Hn; lia|].
    cbn [psize] in Hn. cbn [format]. cbn [app read]. rewrite <- app_assoc. cbn [app].
    change ("["%ch =? 34) with false. change ("["%ch =? "["%ch) with true. cbv iota.
    rewrite (@bracketed_app _ format); [reflexivity|reflexivity|discriminate|lia| |].
    + eapply Forall_impl; [|exact Hl]. intros x Hx. destruct (format_head Hx) as (c & s & E & Hc).
      exists c, s. split; [exact E|]. intros ->. discriminate.
    + rewrite Forall_forall in *. intros y Hy t' Ht'.
      apply (IH y Hy); [apply Hl, Hy|pose proof (list_sum_in psize Hy); lia|exact Ht'].
  - inversion HF as [| | | | |l' Hl|]; subst. destruct n as [|n]; [cbn in Hn; lia|].
    cbn [psize] in Hn. cbn [format]. cbn [app read]. rewrite <- app_assoc. cbn [app].
    change ("{"%ch =? 34) with false. change ("{"%ch =? "["%ch) with false. change ("{"%ch =? "{"%ch) with true. cbv iota.
    rewrite (@bracketed_app _ (fun e : str * pn => ":"%ch :: fst e ++ 32 :: format (snd e)));
      [reflexivity|reflexivity|discriminate|lia| |].
    + apply Forall_forall. intros x _. eexists; eexists; split; [reflexivity|discriminate].
    + rewrite Forall_forall in *. intros y Hy t' Ht'.
      destruct (Hl y Hy) as [Hk Hv]. cbn [app]. rewrite <- app_assoc. cbn [app].
      change (":"%ch =? ":"%ch) with true. cbv iota.
      rewrite (@word_app (fst y) (32 :: format (snd y) ++ t') Hk) by (right; eexists; eexists; split; reflexivity).
      change (32 =? 32) with true. cbv iota.
      rewrite (IH y Hy Hv n t'); [destruct y; reflexivity| |exact Ht'].
      pose proof (list_sum_in (fun e : str * pn => psize (snd e)) Hy) as HH. cbn beta in HH. lia.
  - inversion HF as [| | | | | |nm' l' Hnm Hl]; subst. destruct n as [|n]; [cbn in Hn; lia|].
    cbn [psize] in Hn. cbn [format]. cbn [app read]. rewrite <- !app_assoc.
    change ("("%ch =? 34) with false. change ("("%ch =? "["%ch) with false. change ("("%ch =? "{"%ch) with false.
    change ("("%ch =? "("%ch) with true. cbv iota.
    destruct l as [|x l].
    { cbn [app]. rewrite (word_app Hnm) by (right; eexists; eexists; split; reflexivity).
      change (")"%ch =? ")"%ch) with true. reflexivity. }
    cbn [app]. rewrite (word_app Hnm) by (right; eexists; eexists; split; reflexivity).
    change (32 =? ")"%ch) with false. change (32 =? 32) with true. cbv iota.
    rewrite (@elements_app _ format); [reflexivity|reflexivity|discriminate|discriminate|lia|].
    rewrite Forall_forall in *. intros y Hy t' Ht'.
    apply (IH y Hy); [apply Hl, Hy|pose proof (list_sum_in psize Hy); lia|exact Ht'].
Qed.

(** the length of the text bounds the size *)
Lemma sep_space_length l : (list_sum (map (fun s => S (List.length s)) l) <= S (List.length (sep_space l)))%nat.
Proof.
  induction l as [|x l IH]; [cbn; lia|]. destruct l as [|y l]; [cbn; lia|].
  replace (sep_space (x :: y :: l)) with (x ++ 32 :: sep_space (y :: l)) by reflexivity.
  rewrite app_length. cbn [List.length].
  change (list_sum (map (fun s : list Z => S (List.length s)) (x :: y :: l)))
    with (S (List.length x) + list_sum (map (fun s : list Z => S (List.length s)) (y :: l)))%nat. lia.
Qed.

Lemma size_sum (A : Type) (f : A -> nat) (fmt : A -> str) (l : list A) :
  Forall (fun x => f x <= List.length (fmt x))%nat l ->
  (List.length l + list_sum (map f l) <= S (List.length (sep_space (map fmt l))))%nat.
Proof.
  intros H. eapply Nat.le_trans; [|apply sep_space_length].
  induction H as [|x l Hx Hl IH]; [cbn; lia|]. cbn [map List.length].
  change (list_sum (f x :: map f l)) with (f x + list_sum (map f l))%nat.
  change (list_sum (S (List.length (fmt x)) :: map (fun s => S (List.length s)) (map fmt l)))
    with (S (List.length (fmt x)) + list_sum (map (fun s => S (List.length s)) (map fmt l)))%nat. lia.
Qed.

Lemma psize_length p : faithful p -> (psize p <= List.length (format p))%nat.
Proof.
  induction p as [v|l IH|es IH|nm l IH] using pn_ind'; intros HF.
  - destruct (format_head HF) as (c & s & -> & _). cbn. lia.
  - inversion HF as [| | | |l' Hl| |]; subst. cbn [psize format List.length]. rewrite app_length. cbn [List.length].
    pose proof (@size_sum _ psize format l) as H. 
    assert (Forall (fun x => psize x <= List.length (format x))%nat l).
    { rewrite Forall_forall in *. intros x Hx. apply IH; auto. }
    specialize (H H0). lia.
  - inversion HF as [| | | | |l' Hl|]; subst. cbn [psize format List.length]. rewrite app_length. cbn [List.length].
    pose proof (@size_sum _ (fun e => psize (snd e)) (fun e : str * pn => ":"%ch :: fst e ++ 32 :: format (snd e)) es) as H. 
    assert (H0: Forall (fun x => psize (snd x) <= List.length (":"%ch :: fst x ++ 32%Z :: format (snd x)))%nat es).
    { rewrite Forall_forall in *. intros x Hx. cbn [List.length]. rewrite app_length. cbn [List.length].
      assert (psize (snd x) <= List.length (format (snd x)))%nat by (apply IH; [exact Hx|apply Hl, Hx]). lia. }
    specialize (H H0). unfold str in *. lia.
  - inversion HF as [| | | | | |nm' l' Hnm Hl]; subst. cbn [psize format List.length]. rewrite !app_length. cbn [List.length].
    pose proof (@size_sum _ psize format l) as H. 
    assert (H0: Forall (fun x => psize x <= List.length (format x))%nat l).
    { rewrite Forall_forall in *. intros x Hx. apply IH; auto. }
    specialize (H H0). destruct l as [|x l]; [cbn; lia|]. cbn [List.length] in *. lia.
Qed.

Theorem format_readable p : faithful p -> read_pn (format p) = Some p.
Proof.
  intros HF. unfold read_pn. pose proof (psize_length HF) as Hs.
  pose proof (@read_format p HF (S (List.length (format p))) [] ltac:(lia) (or_introl eq_refl)) as R.
  rewrite app_nil_r in R. now rewrite R.
Qed.

Theorem format_injective p q : faithful p -> faithful q -> format p = format q -> p = q.
Proof.
  intros Hp Hq E. pose proof (format_readable Hp) as A. pose proof (format_readable Hq) as B.
  rewrite E in A. congruence.
Qed.
