(** * PosBase: how far the parser is, and symbolic execution with a bound on fuel

    The lexer does not simply walk forward: a newline on the line of a
    heredoc tag jumps to the line after the heredoc ([c_nls]), which may lie
    behind the current position; a resource that turns out to have no title is
    scanned twice; a failed look for a step name goes back to the start of the
    token.  [key] orders the pairs (position, next line start) such that all
    of these are progress. *)
From Verif Require Import Base Float Tokens Ast Ctx Locator Lexer Parser Utf8Facts.
From Coq Require Import Lia ZifyBool.

(** ** Weakest preconditions that also bound the fuel *)
(** [wpf E B m c Q]: [m] ends normally in [Q], or fails in [E], or runs out of
    fuel and then [B]. *)
Definition wpf (E : err -> ctx -> Prop) (B : Prop) (A : Type) (m : M A) (c : ctx) (Q : A -> ctx -> Prop) : Prop :=
  match m c with
  | Ok a c' => Q a c'
  | Err e c' => E e c'
  | Fuel => B
  end.
Section Rules.
Variables (E : err -> ctx -> Prop) (B : Prop).
Lemma wpf_weaken A (m : M A) c (Q Q' : A -> ctx -> Prop) :
  wpf E B m c Q -> (forall a c', Q a c' -> Q' a c') -> wpf E B m c Q'.
Proof. unfold wpf. destruct (m c); auto. Qed.
Lemma wpf_bind A A' (m : M A) (k : A -> M A') c Q :
  wpf E B m c (fun a c' => wpf E B (k a) c' Q) -> wpf E B (bind m k) c Q.
Proof. unfold wpf, bind. destruct (m c); auto. Qed.
Lemma wpf_ret A (a : A) c (Q : A -> ctx -> Prop) : Q a c -> wpf E B (ret a) c Q.
Proof. exact (fun H => H). Qed.
Lemma wpf_ask A (f : ctx -> A) c (Q : A -> ctx -> Prop) : Q (f c) c -> wpf E B (ask f) c Q.
Proof. exact (fun H => H). Qed.
Lemma wpf_modify (f : ctx -> ctx) c (Q : unit -> ctx -> Prop) : Q tt (f c) -> wpf E B (modify f) c Q.
Proof. exact (fun H => H). Qed.
Lemma wpf_throw A e c (Q : A -> ctx -> Prop) : E e c -> wpf E B (throw e) c Q.
Proof. exact (fun H => H). Qed.
Lemma wpf_issue2 A code a c (Q : A -> ctx -> Prop) : E (Issue code a (c_pos c)) c -> wpf E B (issue2 code a) c Q.
Proof. exact (fun H => H). Qed.
End Rules.
Lemma wpf_bound E (B B' : Prop) A (m : M A) c Q : wpf E B m c Q -> (B -> B') -> wpf E B' m c Q.
Proof. unfold wpf. destruct (m c); auto. Qed.

(** ** The order of positions *)
Section Key.
Variable L : Z.
Hypothesis HL : 0 <= L.
Definition behind (p v : Z) : bool := (0 <=? v) && (v <=? p).
Definition floor_ (p v : Z) : Z := if behind p v then v else p.
Definition key (p v : Z) : Z := if behind p v then v * (L + 3) + p else p * (L + 3) + (L + 2).
Definition KM : Z := (L + 1) * (L + 3) + (L + 2).

Ltac kk := unfold key, floor_, behind, KM in *; repeat match goal with |- context [if ?b then _ else _] => destruct b eqn:? | H : context [if ?b then _ else _] |- _ => destruct b eqn:? end; try nia.
Lemma key_range p v : 0 <= p <= L + 1 -> 0 <= key p v <= KM.
Proof. intros. kk. Qed.
Lemma key_lt p p' v : 0 <= p < p' -> p' <= L + 1 -> key p v < key p' v.
Proof. intros. kk. Qed.
Lemma key_le p p' v : 0 <= p <= p' -> p' <= L + 1 -> key p v <= key p' v.
Proof. intros. kk. Qed.
Lemma key_none p v : 0 <= p <= L + 1 -> key p v <= key p (-1).
Proof. intros. kk. Qed.
Lemma key_jump p v : 0 <= p <= L + 1 -> 0 <= v <= L + 1 -> key p v <= key v (-1).
Proof. intros. kk. Qed.
Lemma key_jump_lt p v : 0 <= p <= L + 1 -> 0 <= v <= L + 1 -> key p v < key v (-1).
Proof. intros. kk. Qed.
Lemma key_floor p v q v' : 0 <= p <= L + 1 -> floor_ p v < v' -> floor_ p v <= q <= L + 1 -> v' <= L + 1 -> key p v <= key q v'.
Proof. intros. kk. Qed.
Lemma key_floor_lt p v q v' : 0 <= p <= L + 1 -> floor_ p v < v' -> floor_ p v < q <= L + 1 -> v' <= L + 1 -> key p v < key q v'.
Proof. intros. kk. Qed.
Lemma floor_mono p v p' v' : 0 <= p <= L + 1 -> 0 <= p' <= L + 1 -> key p v <= key p' v' -> floor_ p v <= floor_ p' v'.
Proof. intros. kk. Qed.
Lemma floor_le p v : 0 <= p -> 0 <= floor_ p v <= p.
Proof. intros. kk. Qed.
(** what may happen to the next line start *)
Definition vnext (p v v' : Z) : Prop := v' = v \/ v' = -1 \/ floor_ p v < v'.
Lemma vnext_refl p v : vnext p v v. Proof. now left. Qed.
Lemma vnext_none p v : vnext p v (-1). Proof. now right; left. Qed.
Lemma vnext_trans p v p' v' v'' : 0 <= p <= L + 1 -> 0 <= p' <= L + 1 -> key p v <= key p' v' ->
  vnext p v v' -> vnext p' v' v'' -> vnext p v v''.
Proof. intros Hp Hp' Hk H1 H2. pose proof (floor_mono Hp Hp' Hk). unfold vnext in *. lia. Qed.
Lemma vnext_reset p v v' q : 0 <= q <= p -> p <= L + 1 -> v' <= L + 1 -> vnext p v v' -> key q v <= key q v'.
Proof. unfold vnext. intros Hq Hp Hv' [->|[->|Hf]]; [lia|apply key_none; lia|]. kk. Qed.
End Key.

(** ** The state *)
(** the reset of a token: an identifier (or keyword) is given back, but not
    taken again *)
Definition weight (t : tok) : Z :=
  if tok_eqb t TEnd then 0
  else if tok_eqb t TIdentifier then 2
  else match keyword t with Some _ => 2 | None => 1 end.
Lemma weight_range t : 0 <= weight t <= 2.
Proof. unfold weight. destruct (tok_eqb t TEnd), (tok_eqb t TIdentifier), (keyword t); lia. Qed.
Lemma weight_pos t : t <> TEnd -> 1 <= weight t.
Proof. unfold weight. destruct t; try (vm_compute; congruence). Qed.

Definition qname (e : expr) : bool := match e with EQName _ _ => true | _ => false end.

Section State.
Variable T : str.
Definition LT : Z := zlen T.
Lemma LT_nonneg : 0 <= LT. Proof. apply zlen_nonneg. Qed.
Definition ky : Z -> Z -> Z := key LT.
Ltac kw := unfold ky; pose proof LT_nonneg; intros; eauto using key_range, key_lt, key_le, key_none, key_jump_lt, key_floor, key_floor_lt, floor_mono, vnext_trans, vnext_reset.
Lemma ky_range p v : 0 <= p <= LT + 1 -> 0 <= ky p v <= KM LT. Proof. kw. Qed.
Lemma ky_lt p p' v : 0 <= p < p' -> p' <= LT + 1 -> ky p v < ky p' v. Proof. kw. Qed.
Lemma ky_le p p' v : 0 <= p <= p' -> p' <= LT + 1 -> ky p v <= ky p' v. Proof. kw. Qed.
Lemma ky_none p v : 0 <= p <= LT + 1 -> ky p v <= ky p (-1). Proof. kw. Qed.
Lemma ky_jump p v : 0 <= p <= LT + 1 -> 0 <= v <= LT + 1 -> ky p v < ky v (-1). Proof. kw. Qed.
Lemma ky_floor p v q v' : 0 <= p <= LT + 1 -> floor_ p v < v' -> floor_ p v <= q <= LT + 1 -> v' <= LT + 1 -> ky p v <= ky q v'. Proof. kw. Qed.
Lemma ky_floor_lt p v q v' : 0 <= p <= LT + 1 -> floor_ p v < v' -> floor_ p v < q <= LT + 1 -> v' <= LT + 1 -> ky p v < ky q v'. Proof. kw. Qed.
Lemma ky_floor_mono p v p' v' : 0 <= p <= LT + 1 -> 0 <= p' <= LT + 1 -> ky p v <= ky p' v' -> floor_ p v <= floor_ p' v'. Proof. kw. Qed.
Lemma vn_trans p v p' v' v'' : 0 <= p <= LT + 1 -> 0 <= p' <= LT + 1 -> ky p v <= ky p' v' -> vnext p v v' -> vnext p' v' v'' -> vnext p v v''. Proof. kw. Qed.
Lemma vn_reset p v v' q : 0 <= q <= p -> p <= LT + 1 -> v' <= LT + 1 -> vnext p v v' -> ky q v <= ky q v'. Proof. kw. Qed.
(** the offset of a node is in the text *)
Definition good (e : expr) : Prop := 0 <= byteOffset e <= LT + 1.
Definition goods (o : option (list expr)) : Prop := match o with Some l => Forall good l | None => True end.
Definition VOk (v : tval) : Prop := match v with VExpr e => good e /\ qname e = false | _ => True end.

(** What may be said of a state; with [b] also of the token's value *)
Definition S_ (b : bool) (p v : Z) (t : tok) (s : Z) (c : ctx) : Prop :=
  c_text c = T /\ c_pos c = p /\ c_nls c = v /\ c_tok c = t /\ c_tsp c = s /\ 0 <= c_bol c /\ (b = true -> VOk (c_val c)).
(** errors are located in the text *)
Definition Ep (e : err) (c : ctx) : Prop :=
  0 <= c_bol c /\ c_text c = T /\
  match e with Issue _ _ off | ParseErr off => 0 <= off <= LT + 1 | IssueAt _ l k => exists off, lineForOffset T off = inl l /\ posOnLine T off = inl k | GoPanic _ => True end.
Section B.
Variable B : Prop.
Notation wpf := (wpf Ep B).

Lemma S_weak b p v t s c : S_ b p v t s c -> S_ false p v t s c.
Proof. unfold S_. intuition discriminate. Qed.
Lemma S_sub b b' p v t s c : S_ b p v t s c -> (b' = true -> b = true) -> S_ b' p v t s c.
Proof. unfold S_. intuition. Qed.

Lemma r_getPos b p v t s c (Q : Z -> ctx -> Prop) : S_ b p v t s c -> Q p c -> wpf getPos c Q.
Proof. intros (_ & <- & _) HH. exact HH. Qed.
Lemma r_setPos b p v t s c x (Q : unit -> ctx -> Prop) :
  S_ b p v t s c -> (forall c', S_ b x v t s c' -> Q tt c') -> wpf (setPos x) c Q.
Proof. intros (H1 & H2 & H3 & H4 & H5 & H6 & H7) HQ. apply HQ. unfold S_. cbn. repeat split; auto. Qed.
Lemma r_advance b p v t s c n (Q : unit -> ctx -> Prop) :
  S_ b p v t s c -> (forall c', S_ b (p + n) v t s c' -> Q tt c') -> wpf (advance n) c Q.
Proof. intros (H1 & H2 & H3 & H4 & H5 & H6 & H7) HQ. apply HQ. unfold S_. cbn. rewrite H2. repeat split; auto. Qed.
Lemma r_tsp b p v t s c (Q : Z -> ctx -> Prop) : S_ b p v t s c -> Q s c -> wpf (ask c_tsp) c Q.
Proof. intros (_ & _ & _ & _ & <- & _) HH. exact HH. Qed.
Lemma r_curTok b p v t s c (Q : tok -> ctx -> Prop) : S_ b p v t s c -> Q t c -> wpf curTok c Q.
Proof. intros (_ & _ & _ & <- & _) HH. exact HH. Qed.
Lemma r_text b p v t s c (Q : str -> ctx -> Prop) : S_ b p v t s c -> Q T c -> wpf (ask c_text) c Q.
Proof. intros (<- & _) HH. exact HH. Qed.
Lemma r_val p v t s c (Q : tval -> ctx -> Prop) : S_ true p v t s c -> (forall x, VOk x -> Q x c) -> wpf (ask c_val) c Q.
Proof. intros (_ & _ & _ & _ & _ & _ & HH) HQ. apply HQ. auto. Qed.
Lemma r_ask b p v t s c A (f : ctx -> A) (Q : A -> ctx -> Prop) : S_ b p v t s c -> (forall x, Q x c) -> wpf (ask f) c Q.
Proof. intros _ HH. apply HH. Qed.
Lemma r_set b p v t s c t' x (Q : unit -> ctx -> Prop) :
  S_ b p v t s c -> VOk x -> (forall c', S_ true p v t' s c' -> Q tt c') -> wpf (settokenValue t' x) c Q.
Proof. intros (H1 & H2 & H3 & H4 & H5 & H6 & H7) Hx HQ. apply HQ. unfold S_. cbn. repeat split; auto. Qed.
Lemma r_setToken b p v t s c t' (Q : unit -> ctx -> Prop) :
  S_ b p v t s c -> (forall c', S_ true p v t' s c' -> Q tt c') -> wpf (setToken t') c Q.
Proof. intros (H1 & H2 & H3 & H4 & H5 & H6 & H7) HQ. apply HQ. unfold S_. cbn. repeat split; auto. Qed.
Lemma r_retok b p v t s c t' (Q : unit -> ctx -> Prop) :
  S_ b p v t s c -> (forall c', S_ b p v t' s c' -> Q tt c') -> wpf (modify (fun c => with_tok t' (c_val c) c)) c Q.
Proof. intros (H1 & H2 & H3 & H4 & H5 & H6 & H7) HQ. apply HQ. unfold S_. cbn. repeat split; auto. Qed.
Lemma r_with_tsp b p v t s c x (Q : unit -> ctx -> Prop) :
  S_ b p v t s c -> (forall c', S_ b p v t x c' -> Q tt c') -> wpf (modify (with_tsp x)) c Q.
Proof. intros (H1 & H2 & H3 & H4 & H5 & H6 & H7) HQ. apply HQ. unfold S_. cbn. repeat split; auto. Qed.
Lemma r_tsp_pos b p v t s c (Q : unit -> ctx -> Prop) :
  S_ b p v t s c -> (forall c', S_ b p v t p c' -> Q tt c') -> wpf (modify (fun c => with_tsp (c_pos c) c)) c Q.
Proof. intros (H1 & H2 & H3 & H4 & H5 & H6 & H7) HQ. apply HQ. unfold S_. cbn. repeat split; auto. Qed.
Lemma r_pos_tsp b p v t s c (Q : unit -> ctx -> Prop) :
  S_ b p v t s c -> (forall c', S_ b s v t s c' -> Q tt c') -> wpf (modify (fun c => with_pos (c_tsp c) c)) c Q.
Proof. intros (H1 & H2 & H3 & H4 & H5 & H6 & H7) HQ. apply HQ. unfold S_. cbn. repeat split; auto. Qed.
Lemma r_bol_pos b p v t s c (Q : unit -> ctx -> Prop) :
  S_ b p v t s c -> 0 <= p -> (forall c', S_ b p v t s c' -> Q tt c') -> wpf (modify (fun c => with_bol (c_pos c) c)) c Q.
Proof. intros (H1 & H2 & H3 & H4 & H5 & H6 & H7) Hp HQ. apply HQ. unfold S_. cbn. rewrite H2. repeat split; auto. Qed.
Lemma r_pos_bol b p v t s c (Q : unit -> ctx -> Prop) :
  S_ b p v t s c -> (forall x c', 0 <= x -> S_ b x v t s c' -> Q tt c') -> wpf (modify (fun c => with_pos (c_bol c) c)) c Q.
Proof. intros (H1 & H2 & H3 & H4 & H5 & H6 & H7) HQ. apply (HQ (c_bol c)); auto. unfold S_. cbn. repeat split; auto. Qed.
Lemma r_radix b p v t s c x (Q : unit -> ctx -> Prop) :
  S_ b p v t s c -> (forall c', S_ b p v t s c' -> Q tt c') -> wpf (modify (with_radix x)) c Q.
Proof. intros (H1 & H2 & H3 & H4 & H5 & H6 & H7) HQ. apply HQ. unfold S_. cbn. repeat split; auto. Qed.
Lemma r_jump b p v t s c (Q : unit -> ctx -> Prop) :
  S_ b p v t s c -> (0 <= v -> forall c', S_ b v (-1) t s c' -> Q tt c') -> (v < 0 -> Q tt c) ->
  wpf (modify (fun x => if 0 <=? c_nls x then with_nls (-1) (with_pos (c_nls x) x) else x)) c Q.
Proof.
  intros (H1 & H2 & H3 & H4 & H5 & H6 & H7) HQ HQ'. unfold PosBase.wpf, modify. rewrite H3. destruct (Z.leb_spec 0 v); [|auto].
  apply HQ; [auto|]. unfold S_. cbn. repeat split; auto.
Qed.
Lemma r_jump2 b p v t s c sz (Q : unit -> ctx -> Prop) :
  S_ b p v t s c -> (0 <= v -> forall c', S_ b v (-1) t s c' -> Q tt c') ->
  (v < 0 -> forall c', S_ b (p + sz) v t s c' -> Q tt c') ->
  wpf (modify (fun x => if 0 <=? c_nls x then with_nls (-1) (with_pos (c_nls x) x) else with_pos (c_pos x + sz) x)) c Q.
Proof.
  intros (H1 & H2 & H3 & H4 & H5 & H6 & H7) HQ HQ'. unfold PosBase.wpf, modify. rewrite H3. destruct (Z.leb_spec 0 v).
  - apply HQ; [auto|]. unfold S_. cbn. repeat split; auto.
  - apply HQ'; [auto|]. unfold S_. cbn. rewrite H2. repeat split; auto.
Qed.
Lemma r_after b p v t s c e g (Q : unit -> ctx -> Prop) :
  S_ b p v t s c -> (forall c', S_ b g (e + 1) t s c' -> Q tt c') ->
  wpf (modify (fun c => with_nls (e + 1) (with_pos g c))) c Q.
Proof. intros (H1 & H2 & H3 & H4 & H5 & H6 & H7) HQ. apply HQ. unfold S_. cbn. repeat split; auto. Qed.
Lemma r_names b p v t s c (f : ctx -> list str) (Q : unit -> ctx -> Prop) :
  S_ b p v t s c -> (forall c', S_ b p v t s c' -> Q tt c') -> wpf (modify (fun c => with_names (f c) c)) c Q.
Proof. intros (H1 & H2 & H3 & H4 & H5 & H6 & H7) HQ. apply HQ. unfold S_. cbn. repeat split; auto. Qed.
Lemma r_defs b p v t s c (f : ctx -> list expr) (Q : unit -> ctx -> Prop) :
  S_ b p v t s c -> (forall c', S_ b p v t s c' -> Q tt c') -> wpf (modify (fun c => with_defs (f c) c)) c Q.
Proof. intros (H1 & H2 & H3 & H4 & H5 & H6 & H7) HQ. apply HQ. unfold S_. cbn. repeat split; auto. Qed.
Lemma r_pop b p v t s c (Q : unit -> ctx -> Prop) :
  S_ b p v t s c -> (forall c', S_ b p v t s c' -> Q tt c') -> wpf popName c Q.
Proof.
  intros (H1 & H2 & H3 & H4 & H5 & H6 & H7) HQ. unfold PosBase.wpf, popName. destruct (c_names c).
  - unfold Ep. auto.
  - apply HQ. unfold S_. cbn. repeat split; auto.
Qed.
Lemma r_issue2 b p v t s c A code a (Q : A -> ctx -> Prop) :
  S_ b p v t s c -> 0 <= p <= LT + 1 -> wpf (issue2 code a) c Q.
Proof. intros (H1 & H2 & H3 & H4 & H5 & H6 & H7) Hp. unfold PosBase.wpf, issue2, Ep. rewrite H2. auto. Qed.
Lemma r_issue b p v t s c A code (Q : A -> ctx -> Prop) :
  S_ b p v t s c -> 0 <= p <= LT + 1 -> wpf (issue code) c Q.
Proof. apply r_issue2. Qed.
Lemma r_throw b p v t s c A site (Q : A -> ctx -> Prop) : S_ b p v t s c -> wpf (throw (GoPanic site)) c Q.
Proof. intros (H1 & H2 & H3 & H4 & H5 & H6 & H7). unfold PosBase.wpf, throw, Ep. auto. Qed.
Lemma r_throwAt b p v t s c A code l k (Q : A -> ctx -> Prop) off : S_ b p v t s c -> lineForOffset T off = inl l -> posOnLine T off = inl k -> wpf (throw (IssueAt code l k)) c Q.
Proof. intros (H1 & H2 & H3 & H4 & H5 & H6 & H7) K1 K2. unfold PosBase.wpf, throw, Ep. eauto. Qed.

(** what the reader finds at a position *)
Definition seen (p r w : Z) : Prop :=
  (LT <= p -> r = 0 /\ w = 0) /\ (p < LT -> 1 <= w /\ p + w <= LT /\ (r < 128 -> w = 1)).
Lemma decode_big x l r w : 128 <= x -> decode_rune (x :: l) = (r, w) -> 128 <= r.
Proof.
  intros Hx. unfold decode_rune, is_cont. destruct (Z.ltb_spec x 128); [lia|].
  destruct ((x <? 194) || (244 <? x)) eqn:?; [intros [= <- <-]; unfold rune_error; lia|].
  destruct l as [|b1 s2]; [intros [= <- <-]; unfold rune_error; lia|].
  destruct (negb _) eqn:?; [intros [= <- <-]; unfold rune_error; lia|].
  destruct (Z.ltb_spec x 224).
  { intros [= <- <-]. repeat match goal with H : context [if ?b then _ else _] |- _ => destruct b eqn:? end; lia. }
  destruct s2 as [|b2 s3]; [intros [= <- <-]; unfold rune_error; lia|].
  destruct (negb ((128 <=? b2) && _)) eqn:?; [intros [= <- <-]; unfold rune_error; lia|].
  destruct (Z.ltb_spec x 240).
  { intros [= <- <-]. repeat match goal with H : context [if ?b then _ else _] |- _ => destruct b eqn:? end; lia. }
  destruct s3 as [|b3 s4]; [intros [= <- <-]; unfold rune_error; lia|].
  destruct (negb ((128 <=? b3) && _)) eqn:?; [intros [= <- <-]; unfold rune_error; lia|].
  intros [= <- <-]. repeat match goal with H : context [if ?b then _ else _] |- _ => destruct b eqn:? end; lia.
Qed.
Lemma rune_at_seen p c r w : c_text c = T -> 0 <= p -> rune_at p c = inl (r, w) -> seen p r w.
Proof.
  intros HT Hp. unfold rune_at, len. rewrite HT. fold LT. destruct (Z.leb_spec LT p).
  - intros [= <- <-]. split; [auto|lia].
  - destruct (Z.ltb_spec p 0); [lia|]. destruct (skipn (Z.to_nat p) T) as [|x l] eqn:K.
    + exfalso. assert (X: (List.length (skipn (Z.to_nat p) T) = 0)%nat) by (rewrite K; reflexivity). rewrite skipn_length in X. unfold LT, zlen in *. unfold str in *. lia.
    + assert (X: zlen (x :: l) = LT - p).
      { unfold zlen. rewrite <- K, skipn_length. unfold LT, zlen in *. unfold str in *. lia. }
      destruct (Z.ltb_spec x 128).
      * intros [= <- <-]. rewrite zlen_cons in X. pose proof (zlen_nonneg l). unfold str in *. split; [lia|]. intros _. lia.
      * destruct (decode_rune (x :: l)) as [r' w'] eqn:D. destruct (r' =? rune_error) eqn:R; [discriminate|]. intros [= <- <-].
        destruct (@decode_width (x :: l) r' w' D ltac:(discriminate)) as [W1 W2].
        pose proof (@decode_big x l r' w' ltac:(lia) D).
        split; [lia|]. intros _. unfold str in *. lia.
Qed.
Lemma rune_at_err p c e : c_text c = T -> rune_at p c = inr e -> e = GoPanic GoIndex \/ (e = ParseErr (c_pos c) /\ 0 <= p < LT).
Proof.
  intros HT. unfold rune_at, len. rewrite HT. fold LT. destruct (Z.leb_spec LT p); [discriminate|].
  destruct (Z.ltb_spec p 0); [intros [= <-]; auto|]. destruct (skipn _ _); [discriminate|]. destruct (_ <? 128); [discriminate|].
  destruct (decode_rune _) as [r w]. destruct (r =? _); [intros [= <-]|discriminate]. right. split; [reflexivity|lia].
Qed.
Lemma r_peek b p v t s c (Q : Z * Z -> ctx -> Prop) :
  S_ b p v t s c -> 0 <= p -> (forall r w, seen p r w -> Q (r, w) c) -> wpf peek c Q.
Proof.
  intros (H1 & H2 & H3 & H4 & H5 & H6 & H7) Hp HQ. unfold PosBase.wpf, peek. rewrite H2.
  destruct (rune_at p c) as [[r w]|e] eqn:K.
  - apply HQ. eapply rune_at_seen; eauto.
  - destruct (rune_at_err H1 K) as [->|[-> X]]; unfold Ep; repeat split; auto; lia.
Qed.
Lemma r_peekAt b p v t s c q (Q : Z * Z -> ctx -> Prop) :
  S_ b p v t s c -> 0 <= p <= LT + 1 -> 0 <= q -> (forall r w, seen q r w -> Q (r, w) c) -> wpf (peekAt q) c Q.
Proof.
  intros (H1 & H2 & H3 & H4 & H5 & H6 & H7) Hp Hq HQ. unfold PosBase.wpf, peekAt. destruct (Z.ltb_spec q 0); [lia|].
  destruct (rune_at q c) as [[r w]|e] eqn:K.
  - apply HQ. eapply rune_at_seen; eauto.
  - destruct (rune_at_err H1 K) as [->|[-> X]]; unfold Ep; repeat split; auto; lia.
Qed.
Lemma r_next b p v t s c (Q : Z * Z -> ctx -> Prop) :
  S_ b p v t s c -> 0 <= p -> (forall r w, seen p r w -> forall c', S_ b (p + w) v t s c' -> Q (r, p) c') -> wpf next c Q.
Proof.
  intros (H1 & H2 & H3 & H4 & H5 & H6 & H7) Hp HQ. unfold PosBase.wpf, next. rewrite H2.
  destruct (rune_at p c) as [[r w]|e] eqn:K.
  - apply (HQ r w); [eapply rune_at_seen; eauto|]. unfold S_. cbn. repeat split; auto.
  - destruct (rune_at_err H1 K) as [->|[-> X]]; unfold Ep; repeat split; auto; lia.
Qed.
Lemma r_from b p v t s c x (Q : str -> ctx -> Prop) :
  S_ b p v t s c -> (forall y, 0 <= x <= p -> p <= LT -> zlen y = p - x -> Q y c) -> wpf (from x) c Q.
Proof.
  intros (H1 & H2 & H3 & H4 & H5 & H6 & H7) HQ. unfold PosBase.wpf, from, len. rewrite H1, H2. fold LT.
  destruct ((0 <=? x) && (x <=? p) && (p <=? LT)) eqn:K.
  - apply HQ; try lia. unfold slice, zlen. rewrite firstn_length, skipn_length. unfold LT, zlen in *. unfold str in *. lia.
  - unfold Ep. auto.
Qed.
Lemma r_while A A' (I : A -> Z -> ctx -> Prop) (body : A -> M (A + A')) (Q : A' -> ctx -> Prop) a m c :
  c_text c = T -> I a m c -> m < 2 * LT + 8 ->
  (forall a m c, I a m c -> 0 <= m /\
     wpf (body a) c (fun r c' => match r with inl a' => exists m', m' < m /\ I a' m' c' | inr b => Q b c' end)) ->
  wpf (while body a) c Q.
Proof.
  intros HT HI Hm HB. unfold PosBase.wpf, while.
  assert (X: forall n a m c, I a m c -> m < Z.of_nat n -> wpf (loop n body a) c Q).
  { induction n as [|n IH]; intros x y z Hx Hy; [destruct (HB _ _ _ Hx); lia|].
    cbn [loop]. apply wpf_bind. eapply wpf_weaken; [apply (HB _ _ _ Hx)|].
    intros [a'|d] c' K; cbn beta iota in *; [|exact K]. destruct K as (m' & K1 & K2). eapply IH; [exact K2|]. lia. }
  apply (X (loop_fuel c) a m c HI). unfold loop_fuel. rewrite HT. unfold LT, zlen in *. unfold str in *. lia.
Qed.
End B.
End State.
