(** Real sequences that are finite sums of exponentials with positive bases: c1*q1^p + ... + cn*qn^p.
    Such a sequence has a constant sign from some index on. *)
From Coq Require Import Reals Lra Classical.
From Verif Require Import Base Num.
Local Open Scope R_scope.

Definition eventually (P : nat -> Prop) : Prop := exists N, forall p, (N <= p)%nat -> P p.
Lemma eventually_and P Q : eventually P -> eventually Q -> eventually (fun p => P p /\ Q p).
Proof. intros [N H] [M K]. exists (max N M). intros p Hp. split; [apply H|apply K]; lia. Qed.
Lemma eventually_mono (P Q : nat -> Prop) : (forall p, P p -> Q p) -> eventually P -> eventually Q.
Proof. intros I [N H]. exists N. auto. Qed.
Lemma eventually_all {A} (P : A -> nat -> Prop) l : (forall x, In x l -> eventually (P x)) -> eventually (fun p => forall x, In x l -> P x p).
Proof.
  induction l as [|a l IH]; intros H; [exists O; intros p _ x []|].
  destruct (eventually_and _ _ (H a (or_introl eq_refl)) (IH (fun x Hx => H x (or_intror Hx)))) as [N K]. exists N. intros p Hp x [<-|Hx]; [exact (proj1 (K p Hp))|exact (proj2 (K p Hp) x Hx)].
Qed.

Definition expsum (l : list (R * R)) (p : nat) : R := rsum (fun cq => fst cq * snd cq ^ p) l.
Definition expseq (f : nat -> R) : Prop := exists l, (forall cq, In cq l -> 0 < snd cq) /\ forall p, f p = expsum l p.

Lemma expseq_ext f g : (forall p, f p = g p) -> expseq f -> expseq g.
Proof. intros H (l & P & E). exists l. split; [exact P|]. intros p. now rewrite <- H. Qed.
Lemma expseq_zero : expseq (fun _ => 0).
Proof. exists []. split; [intros ? []|reflexivity]. Qed.
Lemma expseq_pow c q : 0 < q -> expseq (fun p => c * q ^ p).
Proof. intros H. exists [(c, q)]. split; [intros ? [<-|[]]; exact H|]. intros p. cbn. lra. Qed.
Lemma expseq_const c : expseq (fun _ => c).
Proof. apply (expseq_ext (fun p => c * 1 ^ p)); [intros; rewrite pow1; lra|apply expseq_pow; lra]. Qed.
Lemma expseq_plus f g : expseq f -> expseq g -> expseq (fun p => f p + g p).
Proof.
  intros (l & P & E) (m & Q & F). exists (l ++ m). split; [intros c H; apply in_app_or in H; destruct H; auto|]. intros p. unfold expsum. rewrite rsum_app, E, F. reflexivity.
Qed.
Lemma expseq_scal c f : expseq f -> expseq (fun p => c * f p).
Proof.
  intros (l & P & E). exists (map (fun cq => (c * fst cq, snd cq)) l). split.
  - intros x H. apply in_map_iff in H. destruct H as (y & <- & H). exact (P y H).
  - intros p. unfold expsum. rewrite rsum_map, E. unfold expsum. rewrite <- rsum_scal. apply rsum_ext. intros; cbn; ring.
Qed.
Lemma expseq_minus f g : expseq f -> expseq g -> expseq (fun p => f p - g p).
Proof. intros F G. apply (expseq_ext (fun p => f p + -1 * g p)); [intros; lra|]. apply expseq_plus; [exact F|]. now apply expseq_scal. Qed.
Lemma expseq_sum {A} (f : A -> nat -> R) l : (forall x, In x l -> expseq (f x)) -> expseq (fun p => rsum (fun x => f x p) l).
Proof.
  induction l as [|a l IH]; intros H; cbn [rsum]; [apply expseq_zero|]. apply expseq_plus; [apply H; now left|]. apply IH. intros x Hx. apply H. now right.
Qed.
Lemma expseq_geom f q : 0 < q -> expseq f -> expseq (fun p => f p * q ^ p).
Proof.
  intros Hq (l & P & E). exists (map (fun cq => (fst cq, snd cq * q)) l). split.
  - intros x H. apply in_map_iff in H. destruct H as (y & <- & H). cbn. apply Rmult_lt_0_compat; [exact (P y H)|exact Hq].
  - intros p. unfold expsum. rewrite rsum_map, E. unfold expsum. rewrite <- rsum_scal_r. apply rsum_ext. intros; cbn. rewrite Rpow_mult_distr. ring.
Qed.
Lemma expseq_mult f g : expseq f -> expseq g -> expseq (fun p => f p * g p).
Proof.
  intros F (m & Q & G). apply (expseq_ext (fun p => rsum (fun cq => fst cq * (f p * snd cq ^ p)) m)).
  - intros p. rewrite G. unfold expsum. rewrite <- rsum_scal. apply rsum_ext. intros; ring.
  - apply expseq_sum. intros cq Hc. apply expseq_scal. apply expseq_geom; auto.
Qed.
Lemma expseq_shift f : expseq f -> expseq (fun p => f (S p)).
Proof.
  intros (l & P & E). exists (map (fun cq => (fst cq * snd cq, snd cq)) l). split.
  - intros x H. apply in_map_iff in H. destruct H as (y & <- & H). exact (P y H).
  - intros p. unfold expsum. rewrite rsum_map, E. unfold expsum. apply rsum_ext. intros; cbn. ring.
Qed.

(** constant sign in the end *)
Lemma expsum_sign n : forall l, length l = n -> (forall cq, In cq l -> 0 < snd cq) ->
  eventually (fun p => expsum l p = 0) \/ eventually (fun p => 0 < expsum l p) \/ eventually (fun p => expsum l p < 0).
Proof.
  induction n as [|n IH]; intros l L P.
  - destruct l; [|discriminate]. left. exists O. reflexivity.
  - destruct l as [|[c q] t]; [discriminate|]. injection L as L. assert (Q : 0 < q) by exact (P (c, q) (or_introl eq_refl)).
    set (g := fun p => c + rsum (fun cq => fst cq * (snd cq / q) ^ p) t).
    assert (Eg : forall p, expsum ((c, q) :: t) p = g p * q ^ p).
    { intros p. unfold expsum, g. cbn [rsum fst snd]. rewrite Rmult_plus_distr_r, <- rsum_scal_r. f_equal. apply rsum_ext. intros x _.
      unfold Rdiv. rewrite Rpow_mult_distr, pow_inv. field. apply pow_nonzero. lra. }
    assert (Qp : forall p, 0 < q ^ p) by (intros; now apply pow_lt).
    set (t' := map (fun cq => (fst cq * (snd cq / q - 1), snd cq / q)) t).
    assert (D : forall p, g (S p) - g p = expsum t' p).
    { intros p. unfold g, expsum, t'. rewrite rsum_map.
      rewrite (rsum_ext (fun x : R * R => fst (fst x * (snd x / q - 1), snd x / q) * snd (fst x * (snd x / q - 1), snd x / q) ^ p)
        (fun x => fst x * (snd x / q) ^ S p + -1 * (fst x * (snd x / q) ^ p))) by (intros; cbn; ring).
      rewrite rsum_plus, rsum_scal. ring. }
    assert (P' : forall cq, In cq t' -> 0 < snd cq).
    { intros x H. apply in_map_iff in H. destruct H as (y & <- & H). cbn. apply Rdiv_lt_0_compat; [exact (P y (or_intror H))|exact Q]. }
    assert (L' : length t' = n) by (unfold t'; now rewrite map_length).
    assert (T : eventually (fun p => g p = 0) \/ eventually (fun p => 0 < g p) \/ eventually (fun p => g p < 0)).
    { destruct (IH t' L' P') as [[N H]|[[N H]|[N H]]].
      - assert (K : forall p, (N <= p)%nat -> g p = g N).
        { intros p Hp. induction Hp as [|p Hp IHp]; [reflexivity|]. pose proof (H p Hp). pose proof (D p). lra. }
        destruct (Rtotal_order (g N) 0) as [Z|[Z|Z]].
        + right; right. exists N. intros p Hp. now rewrite K.
        + left. exists N. intros p Hp. now rewrite K.
        + right; left. exists N. intros p Hp. now rewrite K.
      - assert (K : forall p r, (N <= p)%nat -> (p < r)%nat -> g p < g r).
        { intros p r Hp Hr. induction Hr as [|r Hr IHr]; [pose proof (H p Hp); pose proof (D p); lra|]. pose proof (H r ltac:(lia)). pose proof (D r). lra. }
        destruct (classic (exists p, (N <= p)%nat /\ 0 <= g p)) as [(p & Hp & Z)|Z].
        + right; left. exists (S p). intros r Hr. pose proof (K p r Hp ltac:(lia)). lra.
        + right; right. exists N. intros p Hp. apply Rnot_le_lt. intros Z'. apply Z. eauto.
      - assert (K : forall p r, (N <= p)%nat -> (p < r)%nat -> g r < g p).
        { intros p r Hp Hr. induction Hr as [|r Hr IHr]; [pose proof (H p Hp); pose proof (D p); lra|]. pose proof (H r ltac:(lia)). pose proof (D r). lra. }
        destruct (classic (exists p, (N <= p)%nat /\ g p <= 0)) as [(p & Hp & Z)|Z].
        + right; right. exists (S p). intros r Hr. pose proof (K p r Hp ltac:(lia)). lra.
        + right; left. exists N. intros p Hp. apply Rnot_le_lt. intros Z'. apply Z. eauto. }
    destruct T as [T|[T|T]]; [left|right; left|right; right]; revert T; apply eventually_mono; intros p H; rewrite Eg; specialize (Qp p).
    + rewrite H. ring.
    + now apply Rmult_lt_0_compat.
    + assert (0 < - g p * q ^ p) by (apply Rmult_lt_0_compat; lra). lra.
Qed.
Theorem expseq_sign f : expseq f -> eventually (fun p => f p = 0) \/ eventually (fun p => 0 < f p) \/ eventually (fun p => f p < 0).
Proof.
  intros (l & P & E). destruct (expsum_sign (length l) l eq_refl P) as [T|[T|T]]; [left|right; left|right; right]; revert T; apply eventually_mono; intros p H; now rewrite E.
Qed.
