(** * LexBase: running the lexer on a known text

    Equations for the reader and the simple loops when the text from the
    current position on is known. *)
From Verif Require Import Base Float Tokens Ast Ctx Lexer Utf8Facts SpecReader ReaderProof.
From Coq Require Import Lia ZifyBool.

(** [at_ c s]: the text from the current position on is [s]. *)
Definition at_ (c : ctx) (s : str) : Prop := exists pre, c_text c = pre ++ s /\ c_pos c = zlen pre.
(** [fwd n c]: [c] moved forward by [n] bytes *)
Definition fwd (n : Z) (c : ctx) : ctx := with_pos (c_pos c + n) c.
(** The rune at the start of a text and its width, as Peek reports it *)
Definition head_rune (s : str) : option (Z * Z) :=
  match s with
  | [] => Some (0, 0)
  | b :: _ =>
    if b <? 128 then Some (b, 1)
    else let (r, w) := decode_rune s in if r =? rune_error then None else Some (r, w)
  end.
(** the next rune satisfies [P] *)
Definition next_is (s : str) (P : Z -> Prop) : Prop := exists r w, head_rune s = Some (r, w) /\ P r.

Lemma bind_ok A B (m : M A) (k : A -> M B) c a c' : m c = Ok a c' -> bind m k c = k a c'.
Proof. unfold bind. now intros ->. Qed.
Lemma bind_err A B (m : M A) (k : A -> M B) c e c' : m c = Err e c' -> bind m k c = Err e c'.
Proof. unfold bind. now intros ->. Qed.

Lemma at_fwd c a s : at_ c (a ++ s) -> at_ (fwd (zlen a) c) s.
Proof. intros (pre & H1 & H2). exists (pre ++ a). cbn. rewrite <- app_assoc, zlen_app, H2. auto. Qed.
Lemma at_fwd1 c b s : at_ c (b :: s) -> at_ (fwd 1 c) s.
Proof. intros H. apply (@at_fwd c [b] s). exact H. Qed.
Lemma fwd_fwd a b c : fwd a (fwd b c) = fwd (b + a) c.
Proof. unfold fwd, with_pos. cbn. f_equal. lia. Qed.
Lemma fwd_0 c : fwd 0 c = c.
Proof. destruct c. unfold fwd, with_pos. cbn. f_equal. lia. Qed.
Lemma at_len c s : at_ c s -> c_pos c + zlen s = len c.
Proof. intros (pre & H1 & H2). unfold len. rewrite H1, H2, zlen_app. lia. Qed.
Lemma at_pos c s : at_ c s -> 0 <= c_pos c.
Proof. intros (pre & _ & ->). apply zlen_nonneg. Qed.
Lemma at_state c c' s : at_ c s -> c_text c' = c_text c -> c_pos c' = c_pos c -> at_ c' s.
Proof. intros (pre & H1 & H2) H3 H4. exists pre. split; congruence. Qed.
Lemma at_rune_at c s p : at_ c s -> p = c_pos c ->
  rune_at p c = match head_rune s with Some x => inl x | None => inr (ParseErr (c_pos c)) end.
Proof.
  intros H ->. pose proof (at_len H) as HL. pose proof (at_pos H) as HP. destruct H as (pre & H1 & H2). unfold rune_at.
  destruct (Z.leb_spec (len c) (c_pos c)).
  - assert (s = []) as -> by (destruct s; [reflexivity|rewrite zlen_cons in *; pose proof (zlen_nonneg s); unfold str in *; lia]). reflexivity.
  - destruct (Z.ltb_spec (c_pos c) 0); [lia|]. rewrite H1, H2, skipn_zlen. unfold head_rune.
    destruct s as [|b s']; [reflexivity|]. destruct (b <? 128); [reflexivity|]. destruct (decode_rune (b :: s')) as [r w].
    now destruct (r =? rune_error).
Qed.
Lemma at_peek c s x : at_ c s -> head_rune s = Some x -> peek c = Ok x c.
Proof. intros H E. unfold peek. rewrite (at_rune_at H eq_refl), E. reflexivity. Qed.
Lemma at_next c s r w : at_ c s -> head_rune s = Some (r, w) -> next c = Ok (r, c_pos c) (fwd w c).
Proof. intros H E. unfold next. rewrite (at_rune_at H eq_refl), E. reflexivity. Qed.
Lemma rune_at_text p c c' x : c_text c' = c_text c -> rune_at p c = inl x -> rune_at p c' = inl x.
Proof.
  intros E. unfold rune_at, len. rewrite E. destruct (_ <=? _); [auto|]. destruct (_ <? _); [congruence|].
  destruct (skipn _ _); [auto|]. destruct (_ <? _); [auto|]. destruct (decode_rune _). destruct (_ =? _); [congruence|auto].
Qed.
Lemma at_peekAt c a s x : at_ c (a ++ s) -> head_rune s = Some x -> peekAt (c_pos c + zlen a) c = Ok x c.
Proof.
  intros H E. unfold peekAt. pose proof (at_pos H). pose proof (zlen_nonneg a).
  destruct (Z.ltb_spec (c_pos c + zlen a) 0); [lia|].
  pose proof (at_rune_at (p := c_pos c + zlen a) (at_fwd H) eq_refl) as K. rewrite E in K.
  rewrite (@rune_at_text _ (fwd (zlen a) c) c x eq_refl K). reflexivity.
Qed.
Lemma at_from c a s p : at_ c (a ++ s) -> p = c_pos c -> from p (fwd (zlen a) c) = Ok a (fwd (zlen a) c).
Proof.
  intros H ->. pose proof (at_len H) as HL. pose proof (at_pos H) as HP. destruct H as (pre & H1 & H2). unfold from.
  pose proof (zlen_nonneg a) as Ha. pose proof (zlen_nonneg s) as Hs. rewrite zlen_app in *. cbn [fwd with_pos c_pos c_text]. unfold len in *. cbn [fwd with_pos c_pos c_text].
  unfold str in *.
  replace (_ && _ && _) with true by lia. f_equal. unfold slice. rewrite H1, H2, skipn_zlen.
  replace (Z.to_nat _) with (List.length a) by (unfold zlen; lia). rewrite firstn_app, Nat.sub_diag. cbn. rewrite app_nil_r. now rewrite firstn_all.
Qed.

Lemma head_ascii b s : 0 <= b < 128 -> head_rune (b :: s) = Some (b, 1).
Proof. intros H. unfold head_rune. destruct (Z.ltb_spec b 128); [reflexivity|lia]. Qed.
Lemma head_encode r s : valid_rune r = true -> r <> rune_error -> head_rune (encode_rune r ++ s) = Some (r, zlen (encode_rune r)).
Proof.
  intros Hv Hr. pose proof (decode_encode s Hv) as D. pose proof (@encode_rune_nonempty r) as N.
  destruct (encode_rune r) as [|b t] eqn:E; [congruence|]. cbn [app head_rune] in *.
  destruct (Z.ltb_spec b 128) as [Hb|Hb].
  - unfold decode_rune in D. destruct (Z.ltb_spec b 128); [|lia]. inversion D; subst. do 2 f_equal. congruence.
  - change ((b :: t) ++ s) with (b :: t ++ s) in D. rewrite D. destruct (Z.eqb_spec r rune_error); congruence.
Qed.

(** ** Loops *)
Lemma loop_more A B n (body : A -> M (A + B)) a c b c' m : loop n body a c = Ok b c' -> (n <= m)%nat -> loop m body a c = Ok b c'.
Proof.
  revert a c m. induction n as [|n IH]; intros a c m H Hm; [discriminate|]. destruct m as [|m]; [lia|].
  cbn [loop] in *. unfold bind in *. destruct (body a c) as [[a'|x] c1|e c1|]; try discriminate; [|exact H]. apply IH; [exact H|lia].
Qed.
Lemma skip_while_loop p a : forall n k c s r w, at_ c (a ++ s) -> Forall (fun x => 0 <= x < 128 /\ p x = true) a ->
  head_rune s = Some (r, w) -> p r = false -> (List.length a < n)%nat ->
  loop n (fun count => '(c, n) <- peek ;; if p c then advance n ;; ret (inl (count + 1)) else ret (inr (count, (c, n)))) k c
  = Ok (k + zlen a, (r, w)) (fwd (zlen a) c).
Proof.
  induction a as [|b a IH]; intros n k c s r w H HF Hh Hp Hn; (destruct n as [|n]; [cbn in *; lia|]); cbn [loop].
  - cbn [app] in H. unfold bind at 1. rewrite (bind_ok _ (at_peek H Hh)). rewrite Hp. cbn. rewrite fwd_0. unfold ret. do 2 f_equal. f_equal. unfold zlen. cbn. lia.
  - inversion HF as [|? ? [Hb1 Hb2] HF']; subst. cbn [app] in H. unfold bind at 1.
    rewrite (bind_ok _ (at_peek H (head_ascii _ Hb1))). rewrite Hb2. cbv beta. change (advance 1 ;; ret (inl (k + 1))) with (bind (advance 1) (fun _ => @ret (Z + (Z * (Z * Z))) (inl (k + 1)))).
    unfold bind at 1, advance, modify, ret. fold (fwd 1 c).
    erewrite IH; [|exact (at_fwd1 H)|exact HF'|exact Hh|exact Hp|cbn in Hn; lia]. rewrite fwd_fwd, zlen_cons. replace (k + 1 + zlen a) with (k + (1 + zlen a)) by lia. reflexivity.
Qed.
Lemma loop_fuel_enough c a s : at_ c (a ++ s) -> (List.length a < loop_fuel c)%nat.
Proof. intros (pre & H & _). unfold loop_fuel. rewrite H, !app_length. lia. Qed.
Lemma at_skip_while p c a s r w : at_ c (a ++ s) -> Forall (fun x => 0 <= x < 128 /\ p x = true) a ->
  head_rune s = Some (r, w) -> p r = false -> skip_while p c = Ok (zlen a, (r, w)) (fwd (zlen a) c).
Proof. intros H HF Hh Hp. unfold skip_while, while. exact (skip_while_loop 0 H HF Hh Hp (loop_fuel_enough H)). Qed.

(** blanks *)
Definition blank (b : Z) : Prop := b = 32 \/ b = 9 \/ b = 13.
Definition solid (r : Z) : Prop := r <> 10 /\ r <> "#"%ch /\ r <> "/"%ch /\ r <> "*"%ch /\ ~ blank r.
Lemma skipWhite_step_solid brk csp c s r w : at_ c s -> head_rune s = Some (r, w) -> solid r ->
  skipWhite_step brk (0, csp) c = Ok (inr (r, c_pos c)) (fwd w c).
Proof.
  intros H Hh (H1 & H2 & H3 & H4 & H5). unfold blank in H5. unfold skipWhite_step. rewrite (bind_ok _ (at_next H Hh)). cbv beta iota zeta.
  destruct (Z.eqb_spec r 0); [reflexivity|]. destruct (Z.eqb_spec r 10); [congruence|]. destruct (Z.eqb_spec r "#"%ch); [congruence|].
  destruct (Z.eqb_spec r "/"%ch); [congruence|]. destruct (Z.eqb_spec r "*"%ch); [congruence|].
  replace ((r =? " "%ch) || (r =? 13) || (r =? 9)) with false by lia. reflexivity.
Qed.
Lemma skipWhite_step_blank brk csp c b s : at_ c (b :: s) -> blank b ->
  skipWhite_step brk (0, csp) c = Ok (inl (0, csp)) (fwd 1 c).
Proof.
  intros H Hb. unfold blank in Hb. unfold skipWhite_step. rewrite (bind_ok _ (at_next H (@head_ascii b s ltac:(lia)))). cbv beta iota zeta.
  destruct (Z.eqb_spec b 0); [lia|]. destruct (Z.eqb_spec b 10); [lia|]. destruct (Z.eqb_spec b "#"%ch); [lia|].
  destruct (Z.eqb_spec b "/"%ch); [lia|]. destruct (Z.eqb_spec b "*"%ch); [lia|].
  replace ((b =? " "%ch) || (b =? 13) || (b =? 9)) with true by lia. reflexivity.
Qed.
(** [visible s r w]: skipping white space stops at the start of [s], which is
    the rune [r] of width [w] *)
Definition visible (s : str) (r w : Z) : Prop :=
  forall brk csp c, at_ c s -> skipWhite_step brk (0, csp) c = Ok (inr (r, c_pos c)) (fwd w c).
Lemma visible_solid s r w : head_rune s = Some (r, w) -> solid r -> visible s r w.
Proof. intros Hh Hr brk csp c H. exact (skipWhite_step_solid brk csp H Hh Hr). Qed.
Lemma visible_star s : visible ("*"%ch :: s) "*"%ch 1.
Proof. intros brk csp c H. unfold skipWhite_step. rewrite (bind_ok _ (at_next H (@head_ascii "*"%ch s ltac:(lia)))). reflexivity. Qed.
Lemma visible_slash s : next_is s (fun r => r <> "*"%ch) -> visible ("/"%ch :: s) "/"%ch 1.
Proof.
  intros (r & w & Hh & Hr) brk csp c H. unfold skipWhite_step. rewrite (bind_ok _ (at_next H (@head_ascii "/"%ch s ltac:(lia)))). cbv beta iota zeta.
  change ("/"%ch =? 0) with false. change ("/"%ch =? 10) with false. change ("/"%ch =? "#"%ch) with false. change ("/"%ch =? "/"%ch) with true. cbv iota.
  change (0 =? 0) with true. cbv iota. rewrite (bind_ok _ (at_peek (at_fwd1 H) Hh)). cbv beta iota.
  destruct (Z.eqb_spec r "*"%ch); [congruence|reflexivity].
Qed.
Lemma skipWhite_loop brk csp a : forall n c s r w, at_ c (a ++ s) -> Forall blank a -> visible s r w ->
  (List.length a < n)%nat -> loop n (skipWhite_step brk) (0, csp) c = Ok (r, c_pos c + zlen a) (fwd (zlen a + w) c).
Proof.
  induction a as [|b a IH]; intros n c s r w H HF Hr Hn; (destruct n as [|n]; [cbn in *; lia|]); cbn [loop]; unfold bind.
  - rewrite (Hr brk csp c H). unfold ret. f_equal. f_equal. unfold zlen. cbn. lia.
  - inversion HF; subst. rewrite (skipWhite_step_blank _ _ H) by assumption.
    erewrite IH; [|exact (at_fwd1 H)|assumption|exact Hr|cbn in Hn; lia]. cbn [fwd with_pos c_pos].
    rewrite zlen_cons, fwd_fwd. replace (c_pos c + 1 + zlen a) with (c_pos c + (1 + zlen a)) by lia. replace (1 + (zlen a + w)) with (1 + zlen a + w) by lia. reflexivity.
Qed.
Lemma at_skipWhite brk c a s r w : at_ c (a ++ s) -> Forall blank a -> visible s r w ->
  skipWhite brk c = Ok (r, c_pos c + zlen a) (fwd (zlen a + w) c).
Proof. intros H HF Hr. unfold skipWhite, while. exact (skipWhite_loop brk 0 H HF Hr (loop_fuel_enough H)). Qed.
