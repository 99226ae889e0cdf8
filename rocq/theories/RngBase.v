(** * RngBase: every read of the text, and every node, is inside it

    For sources without a heredoc and without workflow syntax: positions only
    move forward, so that slices are in order and nodes are spans of the
    text. *)
From Verif Require Import Base Float Tokens Ast Ctx Locator Lexer Parser Wp.
From Verif Require Utf8Facts PosBase.
From Coq Require Import Lia ZifyBool.

Lemma zlen_cons A (x : A) l : zlen (x :: l) = 1 + zlen l.
Proof. unfold zlen. cbn [List.length]. lia. Qed.
Lemma zlen_nn A (l : list A) : 0 <= zlen l. Proof. unfold zlen. lia. Qed.

(** ** The nodes of a tree *)
Inductive sub (x : expr) : expr -> Prop :=
| sub_refl : sub x x
| sub_child c e : In c (children e) -> sub x c -> sub x e.
Definition eend (e : expr) : Z := byteOffset e + byteLength e.
Definition spanned (lo hi : Z) (e : expr) : Prop := lo <= byteOffset e /\ 0 <= byteLength e /\ eend e <= hi.
Definition within (lo hi : Z) (e : expr) : Prop := forall x, sub x e -> spanned lo hi x.
Lemma within_node lo hi e : spanned lo hi e -> Forall (within lo hi) (children e) -> within lo hi e.
Proof. intros H1 H2 x Hx. destruct Hx as [|c e Hc Hx]; [exact H1|]. rewrite Forall_forall in H2. exact (H2 c Hc x Hx). Qed.
Lemma within_span lo hi e : within lo hi e -> spanned lo hi e.
Proof. intros H. apply H. constructor. Qed.
Lemma within_children lo hi e : within lo hi e -> Forall (within lo hi) (children e).
Proof. intros H. apply Forall_forall. intros c Hc x Hx. apply H. econstructor; eauto. Qed.
Lemma within_mono lo hi lo' hi' e : within lo hi e -> lo' <= lo -> hi <= hi' -> within lo' hi' e.
Proof. intros H H1 H2 x Hx. specialize (H x Hx). unfold spanned in *. lia. Qed.
Lemma withins_mono lo hi lo' hi' l : Forall (within lo hi) l -> lo' <= lo -> hi <= hi' -> Forall (within lo' hi') l.
Proof. intros H H1 H2. eapply Forall_impl; [|exact H]. intros e He. eapply within_mono; eauto. Qed.
Lemma withins_snoc lo hi l x : Forall (within lo hi) l -> within lo hi x -> Forall (within lo hi) (l ++ [x]).
Proof. intros. apply Forall_app. auto. Qed.

(** a list in the order of the text *)
Fixpoint chain (lo hi : Z) (l : list expr) : Prop :=
  match l with
  | [] => True
  | e :: l' => within lo hi e /\ Forall (fun x => eend e <= eend x) l' /\ chain lo hi l'
  end.
Lemma chain_within lo hi l : chain lo hi l -> Forall (within lo hi) l.
Proof. induction l; cbn; [constructor|]. intros (H1 & H2 & H3). constructor; auto. Qed.
Lemma chain_snoc lo hi hi' l x : chain lo hi l -> within lo hi' x -> hi <= hi' -> hi <= eend x -> chain lo hi' (l ++ [x]).
Proof.
  intros Hc Hx H1 H2. induction l as [|e l IH]; cbn [app chain] in *; [split; [assumption|split; [constructor|exact Logic.I]]|].
  destruct Hc as (H3 & H4 & H5). split; [eapply within_mono; eauto; lia|]. split; [|auto]. apply Forall_app. split; [assumption|].
  constructor; [|constructor]. apply within_span in H3. unfold spanned in *. lia.
Qed.
Lemma chain_mono lo hi lo' hi' l : chain lo hi l -> lo' <= lo -> hi <= hi' -> chain lo' hi' l.
Proof. induction l; cbn [chain]; [auto|]. intros (H1 & H2 & H3) Ha Hb. split; [eapply within_mono; eauto|split; auto]. Qed.

Section Text.
Variable T : str.
Variable o : opts.
Notation L := (zlen T).
Definition heredoc : Prop := exists a b, T = a ++ "@"%ch :: "("%ch :: b.
(** the byte at a position *)
Definition chr (p r : Z) : Prop := exists a b, T = a ++ r :: b /\ zlen a = p.
Lemma chr_heredoc p : chr p "@"%ch -> chr (p + 1) "("%ch -> heredoc.
Proof.
  intros (a & b & E & Ha) (a' & b' & E' & Ha').
  exists a. assert (H : skipn (Z.to_nat (p + 1)) T = "("%ch :: b').
  { rewrite E'. rewrite skipn_app. unfold zlen in Ha'. rewrite skipn_all2 by lia. replace (Z.to_nat (p + 1) - _)%nat with O by lia. reflexivity. }
  exists b'. rewrite E. f_equal. f_equal. rewrite <- H, E.
  change ("@"%ch :: b) with (["@"%ch] ++ b). rewrite app_assoc, skipn_app. unfold zlen in *. rewrite skipn_all2 by (rewrite app_length; cbn [List.length]; lia).
  rewrite app_length. cbn [List.length]. replace (Z.to_nat (p + 1) - _)%nat with O by lia. reflexivity.
Qed.

Definition Sr (p : Z) (t : tok) (s : Z) (v : tval) (c : ctx) : Prop :=
  c_text c = T /\ c_opts c = o /\ c_nls c = -1 /\ c_pos c = p /\ c_tok c = t /\ c_tsp c = s /\ c_val c = v /\
  0 <= c_bol c /\ 0 <= p <= L /\ Forall (within 0 L) (c_defs c).
(** the value of the current token; [q] is where it ended *)
Definition VR (lo q p : Z) (t : tok) (s : Z) (v : tval) : Prop :=
  0 <= lo /\ lo <= s <= p /\ lo <= q <= p /\
  match v with
  | VExpr e => within lo p e /\ q <= eend e
  | VStr x => t = TVariable -> s + 1 + zlen x <= p
  | VInt _ => t = TVariable -> s + 1 <= p
  | _ => True
  end.
Definition Er (e : err) (_ : ctx) : Prop :=
  match e with GoPanic (GoSliceBounds | GoIndex) => False | _ => True end.
Lemma VR_low lo q p t s v lo' q' : VR lo q p t s v -> 0 <= lo' <= lo -> lo' <= q' <= q -> VR lo' q' p t s v.
Proof.
  intros (H0 & H1 & H2 & H3) Ha Hb. unfold VR. repeat (split; [lia|]). destruct v; auto. destruct H3. split; [eapply within_mono; eauto; lia|lia].
Qed.
Lemma VR_far lo q p t s v p' : VR lo q p t s v -> p <= p' -> VR lo q p' t s v.
Proof.
  intros (H0 & H1 & H2 & H3) Ha. unfold VR. repeat (split; [lia|]). destruct v; auto; try (intro Ht; specialize (H3 Ht); lia). destruct H3. split; [eapply within_mono; eauto; lia|lia].
Qed.

Definition look (p r w : Z) : Prop := 0 <= w /\ p + w <= L /\ (r <> 0 -> 1 <= w) /\ (0 < r < 128 -> w = 1 /\ chr p r).
Lemma rune_look p c r w : c_text c = T -> 0 <= p <= L -> rune_at p c = inl (r, w) -> look p r w.
Proof.
  intros HT Hp. unfold rune_at, len. rewrite HT. destruct (Z.leb_spec L p).
  - intros [= <- <-]. unfold look. lia.
  - destruct (Z.ltb_spec p 0); [lia|]. destruct (skipn (Z.to_nat p) T) as [|x l] eqn:K.
    + intros [= <- <-]. unfold look. lia.
    + assert (X: zlen (x :: l) = L - p).
      { unfold zlen. rewrite <- K, skipn_length. unfold zlen, str in *. lia. }
      destruct (Z.ltb_spec x 128).
      * intros [= <- <-]. rewrite zlen_cons in X. pose proof (@zlen_nn _ l). unfold look. unfold str in *. split; [lia|]. split; [lia|]. split; [lia|]. intros _. split; [reflexivity|].
        exists (firstn (Z.to_nat p) T), l. rewrite <- K, firstn_skipn. split; [reflexivity|]. unfold zlen in *. rewrite firstn_length. unfold str in *. lia.
      * destruct (decode_rune (x :: l)) as [r' w'] eqn:D. destruct (r' =? rune_error) eqn:R; [discriminate|]. intros [= <- <-].
        destruct (@Utf8Facts.decode_width (x :: l) r' w' D ltac:(discriminate)) as [W1 W2].
        pose proof (@PosBase.decode_big x l r' w' ltac:(lia) D). unfold look. unfold str in *. split; [lia|]. split; [lia|]. split; [lia|]. lia.
Qed.
Lemma rune_fail p c e : c_text c = T -> 0 <= p -> rune_at p c = inr e -> Er e c.
Proof.
  intros HT Hp. unfold rune_at. destruct (_ <=? _); [discriminate|]. destruct (Z.ltb_spec p 0); [lia|].
  destruct skipn as [|b s]; [discriminate|]. destruct (b <? 128); [discriminate|]. destruct decode_rune as [r w].
  destruct (_ =? _); [intros [= <-]; exact I|discriminate].
Qed.

Notation wp := (wp Er).
Lemma r_getPos p t s v c (Q : Z -> ctx -> Prop) : Sr p t s v c -> Q p c -> wp getPos c Q.
Proof. intros (_ & _ & _ & <- & _) HH. exact HH. Qed.
Lemma r_setPos p t s v c x (Q : unit -> ctx -> Prop) :
  Sr p t s v c -> 0 <= x <= L -> (forall c', Sr x t s v c' -> Q tt c') -> wp (setPos x) c Q.
Proof. intros (H1 & H2 & H3 & H4 & H5 & H6 & H7 & H8 & H9 & HD) Hx HQ. apply HQ. unfold Sr. cbn. repeat split; auto; lia. Qed.
Lemma r_advance p t s v c n (Q : unit -> ctx -> Prop) :
  Sr p t s v c -> 0 <= n -> p + n <= L -> (forall c', Sr (p + n) t s v c' -> Q tt c') -> wp (advance n) c Q.
Proof. intros (H1 & H2 & H3 & H4 & H5 & H6 & H7 & H8 & H9 & HD) Hn Hx HQ. apply HQ. unfold Sr. cbn. rewrite H4. repeat split; auto; lia. Qed.
Lemma r_tsp p t s v c (Q : Z -> ctx -> Prop) : Sr p t s v c -> Q s c -> wp (ask c_tsp) c Q.
Proof. intros (_ & _ & _ & _ & _ & <- & _) HH. exact HH. Qed.
Lemma r_curTok p t s v c (Q : tok -> ctx -> Prop) : Sr p t s v c -> Q t c -> wp curTok c Q.
Proof. intros (_ & _ & _ & _ & <- & _) HH. exact HH. Qed.
Lemma r_val p t s v c (Q : tval -> ctx -> Prop) : Sr p t s v c -> Q v c -> wp (ask c_val) c Q.
Proof. intros (_ & _ & _ & _ & _ & _ & <- & _) HH. exact HH. Qed.
Lemma r_text p t s v c (Q : str -> ctx -> Prop) : Sr p t s v c -> Q T c -> wp (ask c_text) c Q.
Proof. intros (<- & _) HH. exact HH. Qed.
Lemma r_opt p t s v c f (Q : bool -> ctx -> Prop) : Sr p t s v c -> Q (f o) c -> wp (option_on f) c Q.
Proof. intros (_ & <- & _) HH. exact HH. Qed.
Lemma r_span p t s v c start (Q : pos -> ctx -> Prop) : Sr p t s v c -> Q (mkpos start (p - start)) c -> wp (span start) c Q.
Proof. intros (_ & _ & _ & <- & _) HH. exact HH. Qed.
Lemma r_ask p t s v c A (f : ctx -> A) (Q : A -> ctx -> Prop) : Sr p t s v c -> (forall x, Q x c) -> wp (ask f) c Q.
Proof. intros _ HH. apply HH. Qed.
Lemma r_set p t s v c t' x (Q : unit -> ctx -> Prop) :
  Sr p t s v c -> (forall c', Sr p t' s x c' -> Q tt c') -> wp (settokenValue t' x) c Q.
Proof. intros (H1 & H2 & H3 & H4 & H5 & H6 & H7 & H8 & H9 & HD) HQ. apply HQ. unfold Sr. cbn. repeat split; auto; lia. Qed.
Lemma r_setToken p t s v c t' (Q : unit -> ctx -> Prop) :
  Sr p t s v c -> (forall c', Sr p t' s VNil c' -> Q tt c') -> wp (setToken t') c Q.
Proof. apply r_set. Qed.
Lemma r_retok p t s v c t' (Q : unit -> ctx -> Prop) :
  Sr p t s v c -> (forall c', Sr p t' s v c' -> Q tt c') -> wp (modify (fun c => with_tok t' (c_val c) c)) c Q.
Proof. intros (H1 & H2 & H3 & H4 & H5 & H6 & H7 & H8 & H9 & HD) HQ. apply HQ. unfold Sr. cbn. repeat split; auto; lia. Qed.
Lemma r_with_tsp p t s v c x (Q : unit -> ctx -> Prop) :
  Sr p t s v c -> (forall c', Sr p t x v c' -> Q tt c') -> wp (modify (with_tsp x)) c Q.
Proof. intros (H1 & H2 & H3 & H4 & H5 & H6 & H7 & H8 & H9 & HD) HQ. apply HQ. unfold Sr. cbn. repeat split; auto; lia. Qed.
Lemma r_tsp_pos p t s v c (Q : unit -> ctx -> Prop) :
  Sr p t s v c -> (forall c', Sr p t p v c' -> Q tt c') -> wp (modify (fun c => with_tsp (c_pos c) c)) c Q.
Proof. intros (H1 & H2 & H3 & H4 & H5 & H6 & H7 & H8 & H9 & HD) HQ. apply HQ. unfold Sr. cbn. repeat split; auto; lia. Qed.
Lemma r_pos_tsp p t s v c (Q : unit -> ctx -> Prop) :
  Sr p t s v c -> 0 <= s <= L -> (forall c', Sr s t s v c' -> Q tt c') -> wp toTokenStart c Q.
Proof. intros (H1 & H2 & H3 & H4 & H5 & H6 & H7 & H8 & H9 & HD) Hs HQ. apply HQ. unfold Sr. cbn. repeat split; auto; lia. Qed.
Lemma r_bol_pos p t s v c (Q : unit -> ctx -> Prop) :
  Sr p t s v c -> (forall c', Sr p t s v c' -> Q tt c') -> wp (modify (fun c => with_bol (c_pos c) c)) c Q.
Proof. intros (H1 & H2 & H3 & H4 & H5 & H6 & H7 & H8 & H9 & HD) HQ. apply HQ. unfold Sr. cbn. repeat split; auto; lia. Qed.
Lemma r_radix p t s v c x (Q : unit -> ctx -> Prop) :
  Sr p t s v c -> (forall c', Sr p t s v c' -> Q tt c') -> wp (modify (with_radix x)) c Q.
Proof. intros (H1 & H2 & H3 & H4 & H5 & H6 & H7 & H8 & H9 & HD) HQ. apply HQ. unfold Sr. cbn. repeat split; auto; lia. Qed.
Lemma r_jump p t s v c (Q : unit -> ctx -> Prop) :
  Sr p t s v c -> Q tt c ->
  wp (modify (fun x => if 0 <=? c_nls x then with_nls (-1) (with_pos (c_nls x) x) else x)) c Q.
Proof. intros (H1 & H2 & H3 & H4 & H5 & H6 & H7 & H8 & H9 & HD) HQ. unfold Wp.wp, modify. rewrite H3. exact HQ. Qed.
Lemma r_push p t s v c n (Q : unit -> ctx -> Prop) :
  Sr p t s v c -> (forall c', Sr p t s v c' -> Q tt c') -> wp (pushName n) c Q.
Proof. intros (H1 & H2 & H3 & H4 & H5 & H6 & H7 & H8 & H9 & HD) HQ. apply HQ. unfold Sr. cbn. repeat split; auto; lia. Qed.
Lemma r_pop p t s v c (Q : unit -> ctx -> Prop) :
  Sr p t s v c -> (forall c', Sr p t s v c' -> Q tt c') -> wp popName c Q.
Proof.
  intros (H1 & H2 & H3 & H4 & H5 & H6 & H7 & H8 & H9 & HD) HQ. unfold Wp.wp, popName. destruct (c_names c); [exact I|].
  apply HQ. unfold Sr. cbn. repeat split; auto; lia.
Qed.
Lemma r_add p t s v c e lo hi (Q : expr -> ctx -> Prop) :
  Sr p t s v c -> within lo hi e -> 0 <= lo -> hi <= L -> (forall c', Sr p t s v c' -> Q e c') -> wp (addDefinition e) c Q.
Proof.
  intros (H1 & H2 & H3 & H4 & H5 & H6 & H7 & H8 & H9 & HD) He Hlo Hhi HQ. unfold addDefinition. apply wp_bind, wp_modify, wp_ret, HQ.
  unfold Sr. cbn. repeat split; auto; try lia. apply withins_snoc; [assumption|]. eapply within_mono; eauto.
Qed.
Lemma r_tokenString p t s v c (Q : str -> ctx -> Prop) : Sr p t s v c -> (forall x, Q x c) -> wp tokenString c Q.
Proof. intros HS HQ. unfold tokenString. apply wp_bind, wp_ask. destruct (c_val c); try exact I; try apply wp_ret; try apply wp_ask; apply HQ. Qed.
Lemma r_assert p t s v c t' (Q : unit -> ctx -> Prop) : Sr p t s v c -> (t = t' -> Q tt c) -> wp (assertToken t') c Q.
Proof.
  intros HS HQ. unfold assertToken. apply wp_bind. eapply r_curTok; [exact HS|]. destruct (tok_eqb t t') eqn:E; [|exact I].
  apply wp_ret, HQ. now apply tok_eqb_eq.
Qed.
Lemma r_peek p t s v c (Q : Z * Z -> ctx -> Prop) :
  Sr p t s v c -> (forall r w, look p r w -> Q (r, w) c) -> wp peek c Q.
Proof.
  intros (H1 & H2 & H3 & H4 & H5 & H6 & H7 & H8 & H9 & HD) HQ. unfold Wp.wp, peek. rewrite H4.
  destruct (rune_at p c) as [[r w]|e] eqn:K; [apply HQ; eapply rune_look; [exact H1| |exact K]; lia|eapply rune_fail; [exact H1| |exact K]; lia].
Qed.
Lemma r_peekAt p t s v c q (Q : Z * Z -> ctx -> Prop) :
  Sr p t s v c -> 0 <= q <= L -> (forall r w, look q r w -> Q (r, w) c) -> wp (peekAt q) c Q.
Proof.
  intros (H1 & H2 & H3 & H4 & H5 & H6 & H7 & H8 & H9 & HD) Hq HQ. unfold Wp.wp, peekAt. destruct (Z.ltb_spec q 0); [lia|].
  destruct (rune_at q c) as [[r w]|e] eqn:K; [apply HQ; eapply rune_look; [exact H1| |exact K]; lia|eapply rune_fail; [exact H1| |exact K]; lia].
Qed.
Lemma r_next p t s v c (Q : Z * Z -> ctx -> Prop) :
  Sr p t s v c -> (forall r w, look p r w -> forall c', Sr (p + w) t s v c' -> Q (r, p) c') -> wp next c Q.
Proof.
  intros (H1 & H2 & H3 & H4 & H5 & H6 & H7 & H8 & H9 & HD) HQ. unfold Wp.wp, next. rewrite H4.
  destruct (rune_at p c) as [[r w]|e] eqn:K; [|eapply rune_fail; [exact H1| |exact K]; lia].
  assert (K' : look p r w) by (eapply rune_look; eauto). apply (HQ r w K'). unfold Sr. cbn. destruct K' as (K1 & K2 & _). repeat split; auto; lia.
Qed.
Lemma r_from p t s v c x (Q : str -> ctx -> Prop) :
  Sr p t s v c -> 0 <= x <= p -> (forall y, zlen y = p - x -> Q y c) -> wp (from x) c Q.
Proof.
  intros (H1 & H2 & H3 & H4 & H5 & H6 & H7 & H8 & H9 & HD) Hx HQ. unfold Wp.wp, from, len. rewrite H1, H4.
  destruct ((0 <=? x) && (x <=? p) && (p <=? L)) eqn:K; [|lia].
  apply HQ. unfold slice, zlen in *. rewrite firstn_length, skipn_length. unfold str in *. lia.
Qed.
End Text.
Arguments Sr : simpl never.
Arguments VR : simpl never.
Arguments Er : simpl never.
Arguments look : simpl never.
Arguments within : simpl never.
Arguments spanned : simpl never.
