(** The long-run behaviour of the linear recurrences: sums of exponentials have eventually constant order, and their
    quotients converge. *)
From Coq Require Import Reals Lra.
From Verif Require Import Base Num Sparse Spec SpecAlg Iterators Algorithms Distance AlgRep AlgRounds AlgTF AlgPack ExpSum Spectral.
Local Open Scope R_scope.

(** ** Eventually constant order *)
Lemma expseq_order {A} (g : nat -> A -> R) (l : list A) : (forall x, In x l -> expseq (fun p => g p x)) ->
  exists N, forall p q, (N <= p)%nat -> (N <= q)%nat -> forall x y, In x l -> In y l -> (g p x < g p y <-> g q x < g q y).
Proof.
  intros H.
  assert (Q : forall x y, In x l -> In y l -> eventually (fun p => g p x < g p y) \/ eventually (fun p => g p y <= g p x)).
  { intros x y Hx Hy. destruct (expseq_sign (fun p => g p y - g p x)) as [S|[S|S]]; [apply expseq_minus; auto|right|left|right];
      revert S; apply eventually_mono; intros; lra. }
  assert (Q1 : eventually (fun p => forall xy, In xy (list_prod l l) -> forall q, (p <= q)%nat -> (g p (fst xy) < g p (snd xy) <-> g q (fst xy) < g q (snd xy)))).
  { apply (eventually_all (fun xy p => forall q, (p <= q)%nat -> (g p (fst xy) < g p (snd xy) <-> g q (fst xy) < g q (snd xy))) (list_prod l l)).
    intros [x y] Hxy. apply in_prod_iff in Hxy. destruct Hxy as [Hx Hy]. cbn [fst snd]. destruct (Q x y Hx Hy) as [[N K]|[N K]]; exists N; intros p Hp q Hq.
    - split; intros _; apply K; lia.
    - pose proof (K p Hp). pose proof (K q ltac:(lia)). split; intros; lra. }
  destruct Q1 as [N K]. exists N. intros p q Hp Hq x y Hx Hy. specialize (K N (le_n N) (x, y) (in_prod _ _ _ _ Hx Hy)). cbn [fst snd] in K.
  rewrite <- (K p Hp), <- (K q Hq). tauto.
Qed.
Lemma expseq_rank {A} (g : nat -> A -> R) (l : list A) : (forall x, In x l -> expseq (fun p => g p x)) ->
  exists N, forall p q, (N <= p)%nat -> (N <= q)%nat -> forall x, In x l -> rrank (g p) l x = rrank (g q) l x.
Proof.
  intros H. destruct (expseq_order g l H) as [N K]. exists N. intros p q Hp Hq x Hx. apply rrank_incr; [|exact Hx]. intros a c Ha Hc. now apply K.
Qed.

(** ** Convergence of quotients *)
Lemma cv_eventually u v x : eventually (fun n => u n = v n) -> Un_cv u x -> Un_cv v x.
Proof. intros [N H] C e He. destruct (C e He) as [M K]. exists (N + M)%nat. intros n Hn. rewrite <- H by lia. apply K. lia. Qed.
Lemma cv_unshift u x k : Un_cv (fun n => u (k + n)%nat) x -> Un_cv u x.
Proof. intros C e He. destruct (C e He) as [N K]. exists (k + N)%nat. intros n Hn. replace n with (k + (n - k))%nat by lia. apply K. lia. Qed.
Lemma cv_eventually_monotone u lo hi : (eventually (fun n => u n <= u (S n)) \/ eventually (fun n => u (S n) <= u n)) -> eventually (fun n => lo <= u n <= hi) ->
  exists x, Un_cv u x.
Proof.
  intros M [N1 B]. destruct M as [[N2 M]|[N2 M]].
  - destruct (growing_cv (fun n => u (N1 + N2 + n)%nat)) as [x C].
    + intros n. replace (N1 + N2 + S n)%nat with (S (N1 + N2 + n)) by lia. apply M. lia.
    + exists hi. intros y (n & ->). apply B. lia.
    + exists x. now apply cv_unshift in C.
  - destruct (decreasing_cv (fun n => u (N1 + N2 + n)%nat)) as [x C].
    + intros n. replace (N1 + N2 + S n)%nat with (S (N1 + N2 + n)) by lia. apply M. lia.
    + exists (- lo). intros y (n & ->). unfold opp_seq. pose proof (B (N1 + N2 + n)%nat ltac:(lia)). lra.
    + exists x. now apply cv_unshift in C.
Qed.
Lemma rmax_is {A} (f : A -> R) l j : In j l -> (forall x, In x l -> f x <= f j) -> rmax f l = f j.
Proof. intros Hj H. apply Rle_antisym; [|now apply rmax_ge]. destruct (rmax_In f l) as (x & Hx & ->); [now destruct l|]. auto. Qed.
(** a family of non-negative sums of exponentials, divided by its maximum, converges; from some point on, the maximum is attained at one place *)
Lemma expseq_by_max {A} (g : nat -> A -> R) (l : list A) : l <> [] -> (forall x, In x l -> expseq (fun p => g p x)) ->
  (forall p x, In x l -> 0 <= g p x) -> (forall p, 0 < rmax (g p) l) ->
  (exists j, In j l /\ eventually (fun p => rmax (g p) l = g p j)) /\ (forall x, In x l -> exists z, Un_cv (fun p => by_max l (g p) x) z).
Proof.
  intros NE H G0 P. destruct (expseq_order g l H) as [N K]. destruct (rmax_In (g N) l NE) as (j & Hj & Ej).
  assert (Mx : eventually (fun p => rmax (g p) l = g p j)).
  { exists N. intros p Hp. apply rmax_is; [exact Hj|]. intros x Hx. apply Rnot_lt_le. intros L. apply (K p N Hp (le_n N) j x Hj Hx) in L.
    pose proof (rmax_ge (g N) l x Hx). lra. }
  split; [exists j; auto|]. intros x Hx.
  assert (C : exists z, Un_cv (fun p => g p x / g p j) z).
  { apply (cv_eventually_monotone _ 0 1).
    - destruct Mx as [N1 Mx].
      assert (E : expseq (fun p => g (S p) x * g p j - g p x * g (S p) j)).
      { apply expseq_minus; apply expseq_mult; auto; apply (expseq_shift (fun p => g p x)) || apply (expseq_shift (fun p => g p j)); auto. }
      assert (D : forall p, (N1 <= p)%nat -> g (S p) x / g (S p) j - g p x / g p j = (g (S p) x * g p j - g p x * g (S p) j) / (g p j * g (S p) j) /\ 0 < g p j * g (S p) j).
      { intros p Hp. pose proof (P p). pose proof (P (S p)). rewrite Mx in H0, H1 by lia. split; [field; lra|nra]. }
      destruct (expseq_sign _ E) as [[M Sg]|[[M Sg]|[M Sg]]]; [left|left|right]; exists (N1 + M)%nat; intros p Hp; destruct (D p ltac:(lia)) as [D1 D2]; specialize (Sg p ltac:(lia)).
      + rewrite Sg in D1. unfold Rdiv at 3 in D1. rewrite Rmult_0_l in D1. lra.
      + pose proof (Rdiv_lt_0_compat _ _ Sg D2). lra.
      + assert (0 < - ((g (S p) x * g p j - g p x * g (S p) j) / (g p j * g (S p) j))); [|lra].
        unfold Rdiv. rewrite Ropp_mult_distr_l. apply Rmult_lt_0_compat; [lra|apply Rinv_0_lt_compat; lra].
    - destruct Mx as [N1 Mx]. exists N1. intros p Hp. pose proof (P p) as Pp. pose proof (rmax_ge (g p) l x Hx) as L. rewrite (Mx p Hp) in *. pose proof (G0 p x Hx). split.
      + unfold Rdiv. apply Rmult_le_pos; [assumption|]. left. now apply Rinv_0_lt_compat.
      + apply Rmult_le_reg_r with (g p j); [exact Pp|]. unfold Rdiv. rewrite Rmult_assoc, Rinv_l by lra. lra. }
  destruct C as [z C]. exists z. revert C. apply cv_eventually. revert Mx. apply eventually_mono. intros p E. unfold by_max. now rewrite E.
Qed.

(** ** Distances of converging vectors *)
Section Dist.
  Context {A : Type}.
  (** the four distance measures on real vectors *)
  Definition real_distance (m : measure) (l : list A) (f g : A -> R) : R :=
    match m with
    | L1 => rsum (fun i => Rabs (f i - g i)) l
    | L2 => sqrt (rsum (fun i => (f i - g i) * (f i - g i)) l)
    | L_INF => rmax (fun i => Rabs (f i - g i)) l
    | COSINE => let P := rsum (fun i => f i * f i) l in let Q := rsum (fun i => g i * g i) l in
        if (reqb P 0 || reqb Q 0)%bool then 1 else rclip (1 - rsum (fun i => f i * g i) l / (sqrt P * sqrt Q))
    | BadMeasure => 0
    end.
  Lemma get_distance_real m l f g : l <> [] -> m <> BadMeasure ->
    @get_distance XR m (map (fun i => Fin (f i)) l) (map (fun i => Fin (g i)) l) = Ok (Fin (real_distance m l f g)).
  Proof.
    intros NE Hm. destruct m; cbn [real_distance].
    - apply distance_l1.
    - apply distance_l2.
    - now apply distance_linf.
    - rewrite distance_cos. cbn zeta. now destruct (_ || _)%bool.
    - congruence.
  Qed.
  Lemma cv_abs_diff u v z : Un_cv u z -> Un_cv v z -> Un_cv (fun n => Rabs (u n - v n)) 0.
  Proof.
    intros Cu Cv. pose proof (CV_minus u v z z Cu Cv) as C. rewrite Rminus_diag_eq in C by reflexivity. intros e He. destruct (C e He) as [N K]. exists N. intros n Hn.
    specialize (K n Hn). unfold R_dist in *. rewrite Rminus_0_r in *. now rewrite Rabs_Rabsolu.
  Qed.
  Lemma cv_squeeze u v : (forall n, 0 <= u n <= v n) -> Un_cv v 0 -> Un_cv u 0.
  Proof.
    intros H C e He. destruct (C e He) as [N K]. exists N. intros n Hn. specialize (K n Hn). specialize (H n). unfold R_dist in *. rewrite Rminus_0_r in *.
    rewrite Rabs_pos_eq in * by lra. lra.
  Qed.
  Lemma distance_cv m (l : list A) (u v : nat -> A -> R) z : l <> [] -> m <> BadMeasure ->
    (forall x, In x l -> Un_cv (fun n => u n x) (z x)) -> (forall x, In x l -> Un_cv (fun n => v n x) (z x)) -> (exists x, In x l /\ z x <> 0) ->
    Un_cv (fun n => real_distance m l (u n) (v n)) 0.
  Proof.
    intros NE Hm Cu Cv (x1 & Hx1 & Z1).
    assert (C1 : Un_cv (fun n => rsum (fun i => Rabs (u n i - v n i)) l) 0).
    { replace 0 with (rsum (fun _ : A => 0) l) by apply rsum_zero. apply (cv_rsum (fun n i => Rabs (u n i - v n i))). intros x Hx. apply (cv_abs_diff _ _ (z x)); auto. }
    destruct m; cbn [real_distance].
    - exact C1.
    - rewrite <- sqrt_0. apply (continuity_seq sqrt (fun n => rsum (fun i => (u n i - v n i) * (u n i - v n i)) l)); [apply continuity_pt_sqrt; lra|].
      replace 0 with (rsum (fun x => (z x - z x) * (z x - z x)) l) by (rewrite (rsum_ext _ (fun _ => 0)) by (intros; ring); apply rsum_zero).
      apply (cv_rsum (fun n i => (u n i - v n i) * (u n i - v n i)) (fun x => (z x - z x) * (z x - z x))). intros x Hx.
      apply (CV_mult (fun n => u n x - v n x) (fun n => u n x - v n x)); apply (CV_minus (fun n => u n x) (fun n => v n x)); auto.
    - revert C1. apply cv_squeeze. intros n. destruct (rmax_In (fun i => Rabs (u n i - v n i)) l NE) as (x & Hx & ->). split; [apply Rabs_pos|].
      apply (rsum_ge_In (fun i => Rabs (u n i - v n i)) l x); [intros; apply Rabs_pos|exact Hx].
    - set (P n := rsum (fun i => u n i * u n i) l). set (Q n := rsum (fun i => v n i * v n i) l). set (D n := rsum (fun i => u n i * v n i) l).
      set (Y := rsum (fun i => z i * z i) l).
      assert (CP : Un_cv P Y) by (apply (cv_rsum (fun n i => u n i * u n i)); intros x Hx; apply (CV_mult (fun n => u n x) (fun n => u n x)); auto).
      assert (CQ : Un_cv Q Y) by (apply (cv_rsum (fun n i => v n i * v n i)); intros x Hx; apply (CV_mult (fun n => v n x) (fun n => v n x)); auto).
      assert (CD : Un_cv D Y) by (apply (cv_rsum (fun n i => u n i * v n i)); intros x Hx; apply (CV_mult (fun n => u n x) (fun n => v n x)); auto).
      assert (Yp : 0 < Y). { apply (rsum_pos _ _ x1); [intros; apply sqnn|exact Hx1|]. pose proof (sqnn (z x1)). nra. }
      assert (CS : forall w, Un_cv w Y -> Un_cv (fun n => sqrt (w n)) (sqrt Y)) by (intros w Cw; apply (continuity_seq sqrt w); [apply continuity_pt_sqrt; lra|exact Cw]).
      assert (SY : 0 < sqrt Y) by now apply sqrt_lt_R0.
      assert (CB : Un_cv (fun n => 1 - D n / (sqrt (P n) * sqrt (Q n))) 0).
      { replace 0 with (1 - Y * / (sqrt Y * sqrt Y)) by (rewrite sqrt_sqrt by lra; field; lra).
        apply (CV_minus (fun _ => 1) (fun n => D n / (sqrt (P n) * sqrt (Q n)))); [apply cv_const|].
        apply (CV_mult D (fun n => / (sqrt (P n) * sqrt (Q n)))); [exact CD|].
        apply (continuity_seq Rinv (fun n => sqrt (P n) * sqrt (Q n))); [|apply (CV_mult (fun n => sqrt (P n)) (fun n => sqrt (Q n))); auto].
        change Rinv with (/ id)%F. apply continuity_pt_inv; [apply derivable_continuous_pt, derivable_pt_id|]. unfold id. nra. }
      intros e He. destruct (CB (Rmin e 1)) as [N1 K1]; [apply Rmin_glb_lt; lra|]. destruct (CP Y Yp) as [N2 K2]. destruct (CQ Y Yp) as [N3 K3].
      exists (N1 + N2 + N3)%nat. intros n Hn. specialize (K1 n ltac:(lia)). specialize (K2 n ltac:(lia)). specialize (K3 n ltac:(lia)). unfold R_dist in *. rewrite Rminus_0_r in *.
      apply Rabs_def2 in K2, K3. cbn zeta. fold (P n) (Q n) (D n). rewrite !reqb_false by lra. cbn [orb].
      pose proof (Rmin_l e 1). pose proof (Rmin_r e 1). apply Rabs_def2 in K1. set (y := 1 - D n / (sqrt (P n) * sqrt (Q n))) in *. unfold rclip.
      rewrite (Rmin_left y 1) by lra. unfold Rmax. destruct (Rle_dec 0 y); apply Rabs_def1; lra.
    - congruence.
  Qed.
End Dist.

(** ** The weighted recurrence *)
Section Weighted.
  Context {S V W : Type} {ES : Eqb S} {EV : Eqb V} {EW : Eqb W}.
  Notation claim := (V * W)%type.
  Notation rscores := (@rscores S V W).
  Variables (ts : list (S * V * W)) (w : S -> R).
  Hypothesis w_nonneg : forall s, In s (sources ts) -> 0 <= w s.
  (** trust: the weight of the source times the beliefs of its claims; belief: the trusts of its supporters *)
  Definition wstep (x : rscores) : rscores := let t s := w s * total_belief ts (snd x) s in (t, total_trust ts t).
  Definition wmat (s : S) (c : claim) : R := sqrt (w s) * ind (says ts s c).
  Lemma wmat_mtm v c : mtm (claims ts) (sources ts) wmat v c = total_trust ts (fun s => w s * total_belief ts v s) c.
  Proof.
    unfold mtm, wmat. rewrite <- rsum_ind. apply rsum_ext. intros s Hs.
    rewrite (rsum_ext _ (fun k => sqrt (w s) * (ind (says ts s k) * v k))) by (intros; ring). rewrite rsum_scal.
    assert (E : rsum (fun k => ind (says ts s k) * v k) (claims ts) = total_belief ts v s).
    { unfold total_belief, claims_of. rewrite rsum_filter. apply rsum_ext. intros k _. unfold ind. destruct (says ts s k); ring. }
    rewrite E. rewrite <- (sqrt_sqrt (w s)) at 3 by auto. ring.
  Qed.
  Lemma wrounds_iter x0 p c : snd (rounds wstep x0 p) c = iter_mtm (claims ts) (sources ts) wmat (snd x0) p c.
  Proof.
    revert c. induction p as [|p IH]; intros c; [reflexivity|]. cbn [rounds iter_mtm]. rewrite wmat_mtm. cbn [wstep snd].
    unfold total_trust, total_belief. apply rsum_ext. intros s _. f_equal. apply rsum_ext. intros k _. apply IH.
  Qed.
  Lemma wbelief_expseq x0 c : In c (claims ts) -> expseq (fun p => snd (rounds wstep x0 (Datatypes.S p)) c).
  Proof.
    intros Hc. eapply expseq_ext; [intros p; symmetry; apply wrounds_iter|]. apply (iter_expseq (claims ts) (sources ts) wmat); [apply distinct_NoDup|exact Hc].
  Qed.
  Lemma wtotal_expseq x0 s : expseq (fun p => total_belief ts (snd (rounds wstep x0 (Datatypes.S p))) s).
  Proof.
    apply (expseq_sum (fun c p => snd (rounds wstep x0 (Datatypes.S p)) c)). intros c Hc. apply wbelief_expseq. unfold claims_of in Hc. apply filter_In in Hc. tauto.
  Qed.
  Lemma wtrust_expseq x0 s : expseq (fun p => fst (rounds wstep x0 (Datatypes.S (Datatypes.S p))) s).
  Proof. exact (expseq_scal (w s) _ (wtotal_expseq x0 s)). Qed.
End Weighted.
