(** * VisitProof: proofs of C30 *)
From Verif Require Import Base Ast Visit SpecVisit.
From Coq Require Import Sorting.Sorted.

Lemma deepVisit_enough e : forall n p, (height e <= n)%nat -> deepVisit n p e = deepVisit (height e) p e.
Proof.
  induction e as [e IH] using expr_children_ind. intros n p Hn.
  assert (Hh: exists h, height e = S h) by (destruct e; cbn [height]; eauto).
  destruct Hh as (h & Hh). rewrite Hh in *. destruct n as [|n]; [lia|].
  cbn [deepVisit].
  assert (HF: forall c, In c (children e) -> (height c <= h)%nat).
  { intros c Hc. apply child_height in Hc. lia. }
  assert (HG: forall l, (forall c, In c l -> In c (children e)) ->
     flat_map (fun c => (e :: p, c) :: deepVisit n (e :: p) c) l
     = flat_map (fun c => (e :: p, c) :: deepVisit h (e :: p) c) l).
  { induction l as [|c l IHl]; intros Hl; [reflexivity|]. cbn [flat_map].
    rewrite (IH c (Hl c (or_introl eq_refl)) n) by (specialize (HF c (Hl c (or_introl eq_refl))); lia).
    rewrite (IH c (Hl c (or_introl eq_refl)) h) by (specialize (HF c (Hl c (or_introl eq_refl))); lia).
    rewrite IHl by (intros x Hx; apply Hl; now right). reflexivity. }
  apply HG. auto.
Qed.

(** the equation of AllContents *)
Lemma allContents_eq p e :
  allContents p e = flat_map (fun c => (e :: p, c) :: allContents (e :: p) c) (children e).
Proof.
  unfold allContents.
  assert (Hh: exists h, height e = S h) by (destruct e; cbn [height]; eauto).
  destruct Hh as (h & Hh). rewrite Hh. cbn [deepVisit].
  assert (HG: forall l, (forall c, In c l -> In c (children e)) ->
     flat_map (fun c => (e :: p, c) :: deepVisit h (e :: p) c) l
     = flat_map (fun c => (e :: p, c) :: deepVisit (height c) (e :: p) c) l).
  { induction l as [|c l IHl]; intros Hl; [reflexivity|]. cbn [flat_map].
    rewrite (@deepVisit_enough c h) by (pose proof (child_height (Hl c (or_introl eq_refl))); lia).
    rewrite IHl by (intros x Hx; apply Hl; now right). reflexivity. }
  apply HG. auto.
Qed.

Lemma list_sum_cons x l : list_sum (x :: l) = (x + list_sum l)%nat.
Proof. reflexivity. Qed.
Lemma list_sum_nil : list_sum [] = O.
Proof. reflexivity. Qed.
Lemma nodes_children e : nodes e = S (list_sum (map nodes (children e))).
Proof.
  destruct e; cbn [nodes children]; f_equal;
    repeat match goal with o : option expr |- _ => destruct o; cbn [opt_list] end;
    repeat (rewrite map_app || rewrite list_sum_app || rewrite map_cons || rewrite list_sum_cons
            || change (map nodes []) with (@nil nat) || rewrite list_sum_nil);
    try reflexivity; lia.
Qed.

Theorem visit_count p e : S (List.length (allContents p e)) = nodes e.
Proof.
  revert p. induction e as [e IH] using expr_children_ind. intros p.
  rewrite allContents_eq, nodes_children. f_equal.
  assert (HG: forall l, (forall c, In c l -> In c (children e)) ->
     List.length (flat_map (fun c => (e :: p, c) :: allContents (e :: p) c) l) = list_sum (map nodes l)).
  { induction l as [|c l IHl]; intros Hl; [reflexivity|]. cbn [flat_map map].
    rewrite app_length. cbn [List.length].
    change (list_sum (nodes c :: map nodes l)) with (nodes c + list_sum (map nodes l))%nat.
    rewrite (IH c (Hl c (or_introl eq_refl))), IHl by (intros x Hx; apply Hl; now right). reflexivity. }
  apply HG. auto.
Qed.

Lemma parts_children e : parts e = children e.
Proof. destruct e; reflexivity. Qed.

(** positions, in the order of the visit *)
Fixpoint addrs (n : nat) (e : expr) : list (list nat) :=
  match n with
  | O => []
  | S n' =>
    (fix go (i : nat) (l : list expr) : list (list nat) :=
       match l with
       | [] => []
       | c :: l' => ([i] :: map (cons i) (addrs n' c)) ++ go (S i) l'
       end) O (children e)
  end.
Definition addr_go (n : nat) := fix go (i : nat) (l : list expr) : list (list nat) :=
       match l with
       | [] => []
       | c :: l' => ([i] :: map (cons i) (addrs n c)) ++ go (S i) l'
       end.
Lemma addrs_S n e : addrs (S n) e = addr_go n O (children e).
Proof. reflexivity. Qed.

Lemma addrs_in n : forall e a anc d, (height e <= n)%nat -> below e a anc d -> In a (addrs n e).
Proof.
  induction n as [|n IH]; intros e a anc d Hn HB.
  { assert (exists h, height e = S h) as (h & Hh) by (destruct e; cbn [height]; eauto). lia. }
  rewrite addrs_S.
  assert (HG: forall l k i c a', nth_error l i = Some c ->
             (a' = [] \/ In a' (addrs n c)) -> In ((k + i)%nat :: a') (addr_go n k l)).
  { induction l as [|x l IHl]; intros k i c a' Hnth Ha'; [destruct i; discriminate|].
    cbn [addr_go]. destruct i as [|i].
    - cbn in Hnth. injection Hnth as ->. rewrite Nat.add_0_r. apply in_or_app. left.
      destruct Ha' as [->|Ha']; [now left|right]. now apply in_map.
    - apply in_or_app. right. replace (k + S i)%nat with (S k + i)%nat by lia.
      apply IHl with c; assumption. }
  destruct HB as [e i c Hc|e i c a anc d Hc HB]; rewrite parts_children in Hc.
  - apply (HG _ O i c []); auto.
  - apply (HG _ O i c a); auto. right. eapply IH; [|exact HB].
    apply nth_error_In in Hc. apply child_height in Hc. lia.
Qed.

Lemma addrs_visit n : forall e p, (height e <= n)%nat ->
  Forall2 (fun a v => exists anc, below e a anc (snd v) /\ fst v = anc ++ p) (addrs n e) (deepVisit n p e).
Proof.
  induction n as [|n IH]; intros e p Hn; [constructor|].
  rewrite addrs_S. cbn [deepVisit].
  assert (HG: forall l k, (forall i c, nth_error l i = Some c -> nth_error (children e) (k + i) = Some c) ->
     Forall2 (fun a v => exists anc, below e a anc (snd v) /\ fst v = anc ++ p)
       (addr_go n k l) (flat_map (fun c => (e :: p, c) :: deepVisit n (e :: p) c) l)).
  { induction l as [|c l IHl]; intros k Hk; [constructor|].
    cbn [addr_go flat_map].
    pose proof (Hk O c eq_refl) as Hc. rewrite Nat.add_0_r in Hc.
    apply Forall2_app.
    - constructor.
      + exists [e]. split; [constructor; now rewrite parts_children|reflexivity].
      + assert (Hh: (height c <= n)%nat).
        { apply nth_error_In in Hc. apply child_height in Hc. lia. }
        specialize (IH c (e :: p) Hh). clear IHl.
        induction IH as [|a v la lv (anc & Hb & Hv) HF IHF]; [constructor|].
        cbn [map]. constructor; [|exact IHF].
        exists (anc ++ [e]). split; [eapply below_deep; [rewrite parts_children|]; eassumption|].
        rewrite Hv, <- app_assoc. reflexivity.
    - apply IHl. intros i x Hi. replace (S k + i)%nat with (k + S i)%nat by lia. apply Hk, Hi. }
  apply HG. intros i c Hc. exact Hc.
Qed.

Lemma addrs_sorted n : forall e, StronglySorted before (addrs n e).
Proof.
  induction n as [|n IH]; intros e; [constructor|]. rewrite addrs_S.
  generalize (children e) as l. generalize O as k. intros k l. revert k.
  induction l as [|c l IHl]; intros k; [constructor|].
  cbn [addr_go].
  assert (Hlate: forall x, In x (addr_go n (S k) l) -> exists j b, x = j :: b /\ (k < j)%nat).
  { clear. revert k. induction l as [|c l IHl]; intros k x Hx; [destruct Hx|].
    cbn [addr_go] in Hx. apply in_app_or in Hx. destruct Hx as [[<-|Hx]|Hx].
    - exists (S k), []. split; [reflexivity|lia].
    - apply in_map_iff in Hx. destruct Hx as (y & <- & _). exists (S k), y. split; [reflexivity|lia].
    - destruct (IHl (S k) x Hx) as (j & b & -> & Hj). exists j, b. split; [reflexivity|lia]. }
  assert (Happ: forall l1 l2, StronglySorted before l1 -> StronglySorted before l2 ->
            (forall x y, In x l1 -> In y l2 -> before x y) -> StronglySorted before (l1 ++ l2)).
  { clear. intros l1 l2 H1 H2 H. induction H1 as [|x l1 Hs IHs Hall]; [exact H2|].
    cbn [app]. constructor.
    - apply IHs. intros a b Ha Hb. apply H; [now right|exact Hb].
    - apply Forall_app. split; [exact Hall|]. apply Forall_forall. intros y Hy. apply H; [now left|exact Hy]. }
  apply Happ.
  - constructor.
    + specialize (IH c). induction IH as [|x l1 Hs IHs Hall]; [constructor|]. cbn [map]. constructor; [exact IHs|].
      apply Forall_forall. intros y Hy. apply in_map_iff in Hy. destruct Hy as (z & <- & Hz).
      apply before_deep. rewrite Forall_forall in Hall. apply Hall, Hz.
    + apply Forall_forall. intros y Hy. apply in_map_iff in Hy. destruct Hy as (z & <- & Hz).
      assert (z <> []).
      { destruct n as [|n']; [destruct Hz|]. rewrite addrs_S in Hz. revert Hz. generalize O as i.
        generalize (children c) as cl. clear. intros cl. induction cl as [|x cl IHc]; intros i Hz; [destruct Hz|].
        cbn [addr_go] in Hz. apply in_app_or in Hz. destruct Hz as [[<-|Hz]|Hz]; [discriminate| |eauto].
        apply in_map_iff in Hz. destruct Hz as (y & <- & _). discriminate. }
      destruct z as [|j b]; [congruence|]. apply before_deep, before_parent.
  - apply IHl.
  - intros x y Hx Hy. destruct (Hlate y Hy) as (j & b & -> & Hj).
    assert (exists a, x = k :: a) as (a & ->).
    { destruct Hx as [<-|Hx]; [eauto|]. apply in_map_iff in Hx. destruct Hx as (z & <- & _). eauto. }
    apply before_sibling. exact Hj.
Qed.

(** The visit is the list of the positions below [e] in document order. *)
Theorem visit_correct p e : exists positions,
  StronglySorted before positions
  /\ (forall a anc d, below e a anc d -> In a positions)
  /\ Forall2 (fun a v => exists anc, below e a anc (snd v) /\ fst v = anc ++ p) positions (allContents p e).
Proof.
  exists (addrs (height e) e). split; [apply addrs_sorted|]. split.
  - intros a anc d. apply addrs_in. lia.
  - apply addrs_visit. lia.
Qed.

Theorem contents_correct p e : contents p e = map (fun c => (e :: p, c)) (parts e).
Proof. now rewrite parts_children. Qed.

(** what the validator needs: an induction principle over visits *)
Lemma allContents_paths p e q d : In (q, d) (allContents p e) -> exists q', q = q' ++ p /\ q' <> [].
Proof.
  intros H. destruct (visit_correct p e) as (pos & _ & _ & HF).
  revert H. induction HF as [|a v la lv (anc & Hb & Hv) HF IH]; [intros []|].
  intros [E|H]; [|auto]. subst v. cbn in *. exists anc. split; [exact Hv|].
  destruct Hb; [discriminate|]. intros E. apply app_eq_nil in E. destruct E as [_ E]. discriminate.
Qed.
