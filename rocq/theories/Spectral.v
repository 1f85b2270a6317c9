(** The entries of the powers of a real matrix of the form N^T N are sums of exponentials (a form of the spectral theorem).
    Matrices are functions on two lists of indices. *)
From Coq Require Import Reals Lra Psatz Classical.
From Verif Require Import Base Num Distance ExpSum.
Local Open Scope R_scope.

(** ** Limits and double sums *)
Lemma cv_const c : Un_cv (fun _ => c) c.
Proof. intros e He. exists O. intros n _. unfold R_dist. rewrite Rminus_diag_eq by reflexivity. rewrite Rabs_R0. exact He. Qed.
Lemma cv_ext u v x : (forall n, u n = v n) -> Un_cv u x -> Un_cv v x.
Proof. intros H C e He. destruct (C e He) as [N K]. exists N. intros n Hn. rewrite <- H. auto. Qed.
Lemma cv_rsum {A} (f : nat -> A -> R) (g : A -> R) l : (forall x, In x l -> Un_cv (fun n => f n x) (g x)) -> Un_cv (fun n => rsum (f n) l) (rsum g l).
Proof.
  induction l as [|a l IH]; intros H; cbn [rsum]; [apply cv_const|]. apply (CV_plus (fun n => f n a) (fun n => rsum (f n) l)); [apply H; now left|]. apply IH. intros x Hx. apply H. now right.
Qed.
Lemma cv_shift u x k : Un_cv u x -> Un_cv (fun n => u (k + n)%nat) x.
Proof. intros C e He. destruct (C e He) as [N K]. exists N. intros n Hn. apply K. lia. Qed.
Lemma cv_pow u x k : Un_cv u x -> Un_cv (fun n => u n ^ k) (x ^ k).
Proof. intros C. induction k as [|k IH]; cbn [pow]; [apply cv_const|]. now apply (CV_mult u (fun n => u n ^ k)). Qed.
Lemma cv_scal u x c : Un_cv u x -> Un_cv (fun n => c * u n) (c * x).
Proof. intros C. apply (CV_mult (fun _ => c) u); [apply cv_const|exact C]. Qed.
Lemma cv_le u x b : (forall n, b <= u n) -> Un_cv u x -> b <= x.
Proof.
  intros H C. apply Rnot_lt_le. intros L. destruct (C (b - x) ltac:(lra)) as [N K]. specialize (K N (le_n N)). specialize (H N). unfold R_dist in K.
  apply Rabs_def2 in K. lra.
Qed.

Lemma rsum_prod {A B} (f : A -> B -> R) l m : rsum (fun x => rsum (fun y => f x y) m) l = rsum (fun xy => f (fst xy) (snd xy)) (list_prod l m).
Proof. induction l as [|a l IH]; cbn [rsum list_prod]; [reflexivity|]. rewrite rsum_app, IH, rsum_map. reflexivity. Qed.
Definition frob {A B} (l : list A) (m : list B) (X Y : A -> B -> R) : R := rsum (fun i => rsum (fun j => X i j * Y i j) m) l.
Lemma frob_nonneg {A B} (l : list A) (m : list B) X : 0 <= frob l m X X.
Proof. apply rsum_nonneg. intros. apply rsum_nonneg. intros. apply sqnn. Qed.
Lemma frob_cs {A B} (l : list A) (m : list B) X Y : frob l m X Y * frob l m X Y <= frob l m X X * frob l m Y Y.
Proof. unfold frob. rewrite !rsum_prod. apply (cauchy_schwarz (fun xy => X (fst xy) (snd xy)) (fun xy => Y (fst xy) (snd xy))). Qed.
Lemma frob_ge {A B} (l : list A) (m : list B) X i j : In i l -> In j m -> X i j * X i j <= frob l m X X.
Proof.
  intros Hi Hj. eapply Rle_trans; [|apply (rsum_ge_In (fun i => rsum (fun j => X i j * X i j) m) l i)]; [| |exact Hi].
  - apply (rsum_ge_In (fun j => X i j * X i j) m j); [intros; apply sqnn|exact Hj].
  - intros. apply rsum_nonneg. intros. apply sqnn.
Qed.
Lemma frob_0 {A B} (l : list A) (m : list B) X : frob l m X X = 0 -> forall i j, In i l -> In j m -> X i j = 0.
Proof. intros H i j Hi Hj. pose proof (frob_ge l m X i j Hi Hj). pose proof (sqnn (X i j)). nra. Qed.
Lemma frob_mul {A} (l : list A) (X Y : A -> A -> R) :
  let Z i k := rsum (fun j => X i j * Y j k) l in frob l l Z Z <= frob l l X X * frob l l Y Y.
Proof.
  intros Z. apply Rle_trans with (rsum (fun i => rsum (fun k => rsum (fun j => X i j * X i j) l * rsum (fun j => Y j k * Y j k) l) l) l).
  - apply rsum_le. intros i _. apply rsum_le. intros k _. apply (cauchy_schwarz (X i) (fun j => Y j k)).
  - right. unfold frob. rewrite (rsum_ext _ (fun i => rsum (fun j => X i j * X i j) l * rsum (fun k => rsum (fun j => Y j k * Y j k) l) l)) by (intros; now rewrite rsum_scal).
    rewrite rsum_scal_r. f_equal. apply (rsum_swap (fun k j => Y j k * Y j k)).
Qed.

(** ** A positive log-convex sequence *)
Section LogConvex.
  Variable T : nat -> R.
  Hypothesis Tpos : forall p, 0 < T p.
  Hypothesis Tlog : forall p, T (S p) * T (S p) <= T p * T (S (S p)).
  Hypothesis Tsub : forall p q, T (S (S (p + q) + S (p + q))) <= T (S (p + p)) * T (S (q + q)).
  Let r p := T (S p) / T p.
  Lemma r_grow : Un_growing r.
  Proof.
    intros p. unfold r. apply Rmult_le_reg_r with (T p * T (S p)); [apply Rmult_lt_0_compat; auto|]. pose proof (Tpos p). pose proof (Tpos (S p)).
    replace (T (S p) / T p * (T p * T (S p))) with (T (S p) * T (S p)) by (field; lra). replace (T (S (S p)) / T (S p) * (T p * T (S p))) with (T p * T (S (S p))) by (field; lra). apply Tlog.
  Qed.
  Lemma r_mono p q : (p <= q)%nat -> r p <= r q.
  Proof. intros H. induction H; [lra|]. pose proof (r_grow m). lra. Qed.
  Lemma r_pos p : 0 < r p.
  Proof. apply Rdiv_lt_0_compat; auto. Qed.
  Lemma r_bound : has_ub r.
  Proof.
    exists (1 + T 1%nat). intros x (p & ->). apply Rle_trans with (r (S (p + p))); [apply r_mono; lia|].
    pose proof (Tsub p 0%nat) as H. rewrite Nat.add_0_r in H. change (T (S (0 + 0))) with (T 1%nat) in H.
    pose proof (r_pos (S (p + p))) as Z. pose proof (r_mono (S (p + p)) (S (S (p + p))) ltac:(lia)) as M.
    assert (E : r (S (p + p)) * r (S (S (p + p))) * T (S (p + p)) = T (S (S p + S p))).
    { unfold r. replace (S p + S p)%nat with (S (S (p + p))) by lia. field. split; apply Rgt_not_eq, Tpos. }
    pose proof (Tpos (S (p + p))) as TP. assert (Y : r (S (p + p)) * r (S (S (p + p))) <= T 1%nat) by (apply Rmult_le_reg_r with (T (S (p + p))); lra).
    pose proof (Tpos 1%nat). nra.
  Qed.
  Lemma lambda_exists : exists la, 0 < la /\ Un_cv r la /\ forall p, r p <= la.
  Proof.
    destruct (growing_cv r r_grow r_bound) as [la C]. exists la. pose proof (growing_ineq r la r_grow C) as H. split; [|split; auto]. pose proof (H O). pose proof (r_pos O). lra.
  Qed.
  Lemma T_lower n0 k : T n0 * r n0 ^ k <= T (n0 + k).
  Proof.
    induction k as [|k IH]; [rewrite Nat.add_0_r; cbn; lra|]. rewrite Nat.add_succ_r. cbn [pow].
    assert (E : T (S (n0 + k)) = r (n0 + k) * T (n0 + k)) by (unfold r; field; apply Rgt_not_eq, Tpos). rewrite E.
    pose proof (r_mono n0 (n0 + k) ltac:(lia)). pose proof (Tpos (n0 + k)). pose proof (r_pos n0). apply Rle_trans with (r n0 * T (n0 + k)).
    - replace (T n0 * (r n0 * r n0 ^ k)) with (r n0 * (T n0 * r n0 ^ k)) by ring. apply Rmult_le_compat_l; lra.
    - apply Rmult_le_compat_r; lra.
  Qed.
  Lemma T_upper p m : T (S (S p) * S m + p * S m - 1)%nat <= T (S (p + p)) ^ S m.
  Proof.
    induction m as [|m IH].
    - cbn [pow]. rewrite Rmult_1_r. right. f_equal. lia.
    - set (q := (S p * S m - 1)%nat). assert (Q : (S p * S m = S q)%nat) by (unfold q; cbn; lia).
      pose proof (Tsub p q) as H. replace (S (S p) * S (S m) + p * S (S m) - 1)%nat with (S (S (p + q) + S (p + q))) by (cbn in *; nia).
      eapply Rle_trans; [exact H|]. change (T (S (p + p)) ^ S (S m)) with (T (S (p + p)) * T (S (p + p)) ^ S m). apply Rmult_le_compat_l; [left; apply Tpos|].
      replace (S (q + q)) with (S (S p) * S m + p * S m - 1)%nat by (cbn in *; nia). exact IH.
  Qed.
  Lemma T_ge la p : Un_cv r la -> 0 < la -> la ^ (S (S (p + p))) <= T (S (p + p)).
  Proof.
    intros C Hl. apply Rnot_lt_le. intros L. set (D := T (S (p + p))) in *. set (K := S (S (p + p))) in *. assert (DP : 0 < D) by apply Tpos.
    destruct (cv_pow r la K C (la ^ K - D) ltac:(lra)) as [n0 H]. specialize (H n0 (le_n n0)). unfold R_dist in H. apply Rabs_def2 in H. destruct H as [_ H].
    assert (B : D < r n0 ^ K) by lra. pose proof (r_pos n0) as RP. set (rho := r n0) in *.
    set (x := rho ^ K / D). assert (X : 1 < x) by (unfold x; apply Rmult_lt_reg_r with D; [exact DP|]; unfold Rdiv; rewrite Rmult_assoc, Rinv_l; lra).
    destruct (Pow_x_infinity x ltac:(rewrite Rabs_right; lra) (rho ^ S n0 / T n0 + 1)) as [M H2].
    set (m := max M (S n0)). specialize (H2 (S m) ltac:(unfold m; lia)). rewrite Rabs_right in H2 by (left; apply pow_lt; lra).
    pose proof (T_upper p m) as U. fold D in U. replace (S (S p) * S m + p * S m - 1)%nat with (n0 + (K * S m - S n0))%nat in U by (unfold K, m; nia).
    pose proof (T_lower n0 (K * S m - S n0)) as Lw. fold rho in Lw.
    assert (E : rho ^ (K * S m - S n0) * rho ^ (S n0) = (rho ^ K) ^ S m).
    { rewrite <- pow_add, <- pow_mult. f_equal. unfold K, m. nia. }
    assert (F : (rho ^ K) ^ S m = x ^ S m * D ^ S m).
    { rewrite <- Rpow_mult_distr. f_equal. unfold x. field. lra. }
    assert (T0 : 0 < T n0) by apply Tpos. assert (RS : 0 < rho ^ S n0) by (apply pow_lt; exact RP). assert (DM : 0 < D ^ S m) by (apply pow_lt; exact DP).
    assert (Z : T n0 * rho ^ (K * S m - S n0) <= D ^ S m) by lra.
    assert (Z2 : T n0 * (x ^ S m * D ^ S m) <= D ^ S m * rho ^ S n0).
    { rewrite <- F, <- E, <- Rmult_assoc. apply Rmult_le_compat_r; lra. }
    assert (Z3 : T n0 * x ^ S m <= rho ^ S n0) by (apply Rmult_le_reg_r with (D ^ S m); lra).
    assert (Z4 : x ^ S m <= rho ^ S n0 / T n0) by (apply Rmult_le_reg_r with (T n0); [exact T0|]; unfold Rdiv; rewrite Rmult_assoc, Rinv_l by lra; lra). lra.
  Qed.
  (** T p / la^(p+1) decreases to a limit that is at least 1 *)
  Lemma c_limit la : Un_cv r la -> 0 < la -> (forall p, r p <= la) ->
    exists c, 1 <= c /\ Un_cv (fun p => T p / la ^ S p) c /\ (forall p, c <= T p / la ^ S p) /\ (forall p q, (p <= q)%nat -> T q / la ^ S q <= T p / la ^ S p).
  Proof.
    intros C Hl B. set (c := fun p => T p / la ^ S p). assert (LP : forall p, 0 < la ^ p) by (intros; now apply pow_lt).
    assert (D : Un_decreasing c).
    { intros p. unfold c. apply Rmult_le_reg_r with (la ^ S (S p)); [apply LP|]. cbn [pow]. pose proof (LP p). pose proof (B p) as Bp. unfold r in Bp. pose proof (Tpos p).
      replace (T (S p) / (la * (la * la ^ p)) * (la * (la * la ^ p))) with (T (S p)) by (field; lra).
      replace (T p / (la * la ^ p) * (la * (la * la ^ p))) with (la * T p) by (field; lra).
      apply Rmult_le_reg_r with (/ T p); [now apply Rinv_0_lt_compat|]. unfold Rdiv in Bp. rewrite Rmult_assoc, Rinv_r by lra. lra. }
    assert (M : forall p q, (p <= q)%nat -> c q <= c p) by (intros p q H; induction H; [lra|]; pose proof (D m); lra).
    assert (One : forall p, 1 <= c p).
    { intros p. apply Rle_trans with (c (S (p + p))); [|apply M; lia]. unfold c. apply Rmult_le_reg_r with (la ^ S (S (p + p))); [apply LP|].
      unfold Rdiv. rewrite Rmult_assoc, Rinv_l by (apply Rgt_not_eq, LP). pose proof (T_ge la p C Hl). lra. }
    destruct (decreasing_cv c D) as [x Cx].
    - exists 0. intros y (p & ->). unfold opp_seq. pose proof (One p). lra.
    - exists x. split; [exact (cv_le c x 1 One Cx)|]. split; [exact Cx|]. split; [exact (decreasing_ineq c x D Cx)|exact M].
  Qed.
End LogConvex.

(** ** Matrices *)
Section Matrices.
  Context {I J : Type} {EI : Eqb I}.
  Variables (l : list I) (m : list J).

  (** G p is the (p+1)-st power of a matrix A, N p is M A^p where A = M^T M, and Q is a symmetric projection with Q A = A *)
  Record gram (G : nat -> I -> I -> R) (N : nat -> J -> I -> R) (Q : I -> I -> R) : Prop := {
    g_mul : forall p q i k, In i l -> In k l -> rsum (fun j => G p i j * G q j k) l = G (S (p + q)) i k;
    g_sym : forall p i k, In i l -> In k l -> G p i k = G p k i;
    g_gram : forall p q i k, In i l -> In k l -> rsum (fun j => N p j i * N q j k) m = G (p + q)%nat i k;
    q_sym : forall i k, In i l -> In k l -> Q i k = Q k i;
    q_idem : forall i k, In i l -> In k l -> rsum (fun j => Q i j * Q j k) l = Q i k;
    q_left : forall p i k, In i l -> In k l -> rsum (fun j => Q i j * G p j k) l = G p i k
  }.
  Definition trace (X : I -> I -> R) : R := rsum (fun i => X i i) l.

  Section Step.
    Variables (G : nat -> I -> I -> R) (N : nat -> J -> I -> R) (Q : I -> I -> R).
    Hypothesis H : gram G N Q.
    Let T p := trace (G p).
    Lemma frob_G p q : frob l l (G p) (G q) = T (S (p + q)).
    Proof.
      unfold frob, T, trace. apply rsum_ext. intros i Hi. rewrite <- (g_mul _ _ _ H p q i i Hi Hi). apply rsum_ext. intros k Hk. now rewrite (g_sym _ _ _ H q i k Hi Hk).
    Qed.
    Lemma frob_N p q : frob m l (N p) (N q) = T (p + q).
    Proof.
      unfold frob, T, trace. rewrite rsum_swap. apply rsum_ext. intros i Hi. now rewrite <- (g_gram _ _ _ H p q i i Hi Hi).
    Qed.
    Lemma parity p : (exists a, p = a + a)%nat \/ (exists a, p = S (a + a))%nat.
    Proof. induction p as [|p [(a & ->)|(a & ->)]]; [left; now exists O|right; now exists a|left; exists (S a); lia]. Qed.
    Lemma T_nonneg p : 0 <= T p.
    Proof. destruct (parity p) as [(a & ->)|(a & ->)]; [rewrite <- frob_N|rewrite <- frob_G]; apply frob_nonneg. Qed.
    Lemma T_log p : T (S p) * T (S p) <= T p * T (S (S p)).
    Proof.
      destruct (parity p) as [(a & ->)|(a & ->)].
      - pose proof (frob_cs m l (N a) (N (S a))) as Z. rewrite !frob_N in Z. replace (a + S a)%nat with (S (a + a)) in Z by lia. replace (S a + S a)%nat with (S (S (a + a))) in Z by lia. exact Z.
      - pose proof (frob_cs l l (G a) (G (S a))) as Z. rewrite !frob_G in Z. replace (a + S a)%nat with (S (a + a)) in Z by lia. replace (S a + S a)%nat with (S (S (a + a))) in Z by lia. exact Z.
    Qed.
    Lemma T_sub p q : T (S (S (p + q) + S (p + q))) <= T (S (p + p)) * T (S (q + q)).
    Proof.
      rewrite <- !frob_G. pose proof (frob_mul l (G p) (G q)) as Z. cbn zeta in Z. refine (Rle_trans _ _ _ _ Z). right. unfold frob.
      apply rsum_ext. intros i Hi. apply rsum_ext. intros k Hk. now rewrite (g_mul _ _ _ H p q i k Hi Hk).
    Qed.
    Lemma T_zero : T 0 = 0 -> forall p i k, In i l -> In k l -> G p i k = 0.
    Proof.
      intros Z. assert (N0 : forall j i, In j m -> In i l -> N 0%nat j i = 0) by (apply frob_0; now rewrite frob_N).
      assert (G0 : forall i k, In i l -> In k l -> G 0%nat i k = 0).
      { intros i k Hi Hk. change (G 0%nat i k) with (G (0 + 0)%nat i k). rewrite <- (g_gram _ _ _ H 0 0 i k Hi Hk). rewrite (rsum_ext _ (fun _ => 0)); [apply rsum_zero|]. intros j Hj. rewrite (N0 j i Hj Hi). ring. }
      intros [|p] i k Hi Hk; [auto|]. change (S p) with (S (0 + p)). rewrite <- (g_mul _ _ _ H 0 p i k Hi Hk). rewrite (rsum_ext _ (fun _ => 0)); [apply rsum_zero|].
      intros j Hj. rewrite (G0 i j Hi Hj). ring.
    Qed.
    Lemma T_pos : T 0 <> 0 -> forall p, 0 < T p.
    Proof.
      intros NZ. pose proof (T_nonneg 0) as T0.
      assert (T1 : 0 < T 1%nat).
      { pose proof (T_nonneg 1%nat). destruct (Req_dec (T 1%nat) 0) as [Z|Z]; [|lra]. exfalso. apply NZ. unfold T, trace.
        rewrite (rsum_ext _ (fun _ => 0)); [apply rsum_zero|]. intros i Hi. apply (frob_0 l l (G 0%nat)); auto. now rewrite frob_G. }
      assert (P : forall p, 0 < T p /\ 0 < T (S p)).
      { induction p as [|p [A B]]; [split; lra|]. split; [exact B|]. pose proof (T_log p) as Z.
        apply Rnot_le_lt. intros L. assert (0 < T (S p) * T (S p)) by now apply Rmult_lt_0_compat. assert (T p * T (S (S p)) <= 0) by nra. lra. }
      intros p. apply P.
    Qed.
    (** removing the part that belongs to the largest eigenvalue *)
    Lemma deflate : T 0 <> 0 -> exists la P, 0 < la /\ 1 <= trace P /\
      gram (fun p i k => G p i k - la ^ S p * P i k) (fun p j i => N p j i - rsum (fun k => N p j k * P k i) l) (fun i k => Q i k - P i k).
    Proof.
      intros NZ. pose proof (T_pos NZ) as TP. destruct (lambda_exists T TP T_log T_sub) as (la & Hl & C & B).
      destruct (c_limit T TP T_log T_sub la C Hl B) as (c & C1 & Cc & Cb & Cm). set (cs := fun p => T p / la ^ S p) in *.
      assert (LP : forall p, 0 < la ^ p) by (intros; now apply pow_lt).
      set (Bm := fun p i k => G p i k / la ^ S p).
      assert (dist : forall p q i k, In i l -> In k l -> (Bm p i k - Bm q i k) * (Bm p i k - Bm q i k) <= cs (S (p + p)) + cs (S (q + q)) - 2 * cs (S (p + q))).
      { intros p q i k Hi Hk. eapply Rle_trans; [exact (frob_ge l l (fun i k => Bm p i k - Bm q i k) i k Hi Hk)|]. right. unfold frob.
        rewrite (rsum_ext _ (fun i => rsum (fun k => G p i k * G p i k) l * (/ la ^ S p * / la ^ S p) +
          (rsum (fun k => G q i k * G q i k) l * (/ la ^ S q * / la ^ S q) + rsum (fun k => G p i k * G q i k) l * (-2 * (/ la ^ S p * / la ^ S q))))).
        - rewrite !rsum_plus, !rsum_scal_r. fold (frob l l (G p) (G p)) (frob l l (G q) (G q)) (frob l l (G p) (G q)). rewrite !frob_G. unfold cs, Rdiv.
          replace (la ^ S (S (p + p))) with (la ^ S p * la ^ S p) by (rewrite <- pow_add; f_equal; lia).
          replace (la ^ S (S (q + q))) with (la ^ S q * la ^ S q) by (rewrite <- pow_add; f_equal; lia).
          replace (la ^ S (S (p + q))) with (la ^ S p * la ^ S q) by (rewrite <- pow_add; f_equal; lia).
          rewrite !Rinv_mult. ring.
        - intros a _. rewrite <- !rsum_scal_r, <- !rsum_plus. apply rsum_ext. intros b _. unfold Bm, Rdiv. ring. }
      set (Bz := fun i k p => if mem i l && mem k l then Bm p i k else 0).
      assert (Cau : forall i k, Cauchy_crit (Bz i k)).
      { intros i k. unfold Bz. destruct (mem i l && mem k l) eqn:E.
        - apply andb_true_iff in E. destruct E as [Ei Ek]. apply mem_In in Ei, Ek. intros e He.
          destruct (Cc (e * e / 4) ltac:(assert (0 < e * e) by (apply Rmult_lt_0_compat; lra); lra)) as [M K]. exists M. intros p q Hp Hq.
          pose proof (dist p q i k Ei Ek) as Z.
          assert (A : forall p, (p >= M)%nat -> cs (S (p + p)) < c + e * e / 4).
          { intros p' Hp'. specialize (K (S (p' + p')) ltac:(lia)). unfold R_dist in K. apply Rabs_def2 in K. lra. }
          pose proof (A p Hp). pose proof (A q Hq). pose proof (Cb (S (p + q))) as Z3. change (c <= cs (S (p + q))) in Z3.
          unfold R_dist. apply Rnot_le_lt. intros Z4. pose proof (Rsqr_le_abs_1 e (Bm p i k - Bm q i k)) as Z5. rewrite (Rabs_right e) in Z5 by lra. specialize (Z5 Z4). unfold Rsqr in Z5.
          assert (0 < e * e) by (apply Rmult_lt_0_compat; lra). lra.
        - intros e He. exists O. intros. unfold R_dist. rewrite Rminus_diag_eq by reflexivity. rewrite Rabs_R0. exact He. }
      set (P := fun i k => proj1_sig (R_complete (Bz i k) (Cau i k))).
      assert (CP : forall i k, In i l -> In k l -> Un_cv (fun p => Bm p i k) (P i k)).
      { intros i k Hi Hk. unfold P. destruct (R_complete (Bz i k) (Cau i k)) as [x Cx]. cbn. apply (cv_ext (Bz i k)); [|exact Cx]. intros p. unfold Bz.
        apply mem_In in Hi, Hk. now rewrite Hi, Hk. }
      clearbody P. clear Cau Bz dist.
      assert (Psym : forall i k, In i l -> In k l -> P i k = P k i).
      { intros i k Hi Hk. apply (UL_sequence (fun p => Bm p i k)); [now apply CP|]. apply (cv_ext (fun p => Bm p k i)); [|now apply CP]. intros p. unfold Bm. now rewrite (g_sym _ _ _ H p i k Hi Hk). }
      assert (GP : forall p i k, In i l -> In k l -> rsum (fun j => G p i j * P j k) l = la ^ S p * P i k).
      { intros p i k Hi Hk. apply (UL_sequence (fun q => rsum (fun j => G p i j * Bm q j k) l)).
        - apply cv_rsum. intros j Hj. apply cv_scal. now apply CP.
        - apply (cv_ext (fun q => la ^ S p * Bm (S p + q)%nat i k)).
          + intros q. unfold Bm, Rdiv. rewrite (rsum_ext _ (fun j => G p i j * G q j k * / la ^ S q)) by (intros; ring). rewrite rsum_scal_r, (g_mul _ _ _ H p q i k Hi Hk).
            change (S p + q)%nat with (S (p + q)). replace (la ^ S (S (p + q))) with (la ^ S p * la ^ S q) by (rewrite <- pow_add; f_equal; lia). field. split; apply Rgt_not_eq, LP.
          + apply cv_scal. apply (cv_shift (fun q => Bm q i k) (P i k) (S p)). now apply CP. }
      assert (PG : forall p i k, In i l -> In k l -> rsum (fun j => P i j * G p j k) l = la ^ S p * P i k).
      { intros p i k Hi Hk. rewrite (Psym i k Hi Hk), <- (GP p k i Hk Hi). apply rsum_ext. intros j Hj. rewrite (Psym i j Hi Hj), (g_sym _ _ _ H p j k Hj Hk). ring. }
      assert (PP : forall i k, In i l -> In k l -> rsum (fun j => P i j * P j k) l = P i k).
      { intros i k Hi Hk. apply (UL_sequence (fun q => rsum (fun j => Bm q i j * P j k) l)).
        - apply cv_rsum. intros j Hj. apply (CV_mult (fun q => Bm q i j) (fun _ => P j k)); [now apply CP|apply cv_const].
        - apply (cv_ext (fun _ => P i k)); [|apply cv_const]. intros q. unfold Bm, Rdiv. rewrite (rsum_ext _ (fun j => G q i j * P j k * / la ^ S q)) by (intros; ring).
          rewrite rsum_scal_r, GP by assumption. field. apply Rgt_not_eq, LP. }
      assert (QP : forall i k, In i l -> In k l -> rsum (fun j => Q i j * P j k) l = P i k).
      { intros i k Hi Hk. apply (UL_sequence (fun q => rsum (fun j => Q i j * Bm q j k) l)).
        - apply cv_rsum. intros j Hj. apply cv_scal. now apply CP.
        - apply (cv_ext (fun q => Bm q i k)); [|now apply CP]. intros q. unfold Bm, Rdiv. rewrite (rsum_ext _ (fun j => Q i j * G q j k * / la ^ S q)) by (intros; ring).
          rewrite rsum_scal_r, (q_left _ _ _ H q i k Hi Hk). reflexivity. }
      assert (PQ : forall i k, In i l -> In k l -> rsum (fun j => P i j * Q j k) l = P i k).
      { intros i k Hi Hk. rewrite (Psym i k Hi Hk), <- (QP k i Hk Hi). apply rsum_ext. intros j Hj. rewrite (Psym i j Hi Hj), (q_sym _ _ _ H j k Hj Hk). ring. }
      assert (TrP : trace P = c).
      { apply (UL_sequence cs); [|exact Cc]. apply (cv_ext (fun p => rsum (fun i => Bm p i i) l)); [|apply cv_rsum; intros i Hi; now apply CP].
        intros p. unfold cs, T, trace, Bm. apply rsum_div. }
      exists la, P. split; [exact Hl|]. split; [lra|]. constructor.
      - intros p q i k Hi Hk.
        rewrite (rsum_ext _ (fun j => G p i j * G q j k + (G p i j * P j k * - la ^ S q + (P i j * G q j k * - la ^ S p + P i j * P j k * (la ^ S p * la ^ S q))))) by (intros; ring).
        rewrite !rsum_plus, !rsum_scal_r, GP, PG, PP, (g_mul _ _ _ H p q i k Hi Hk) by assumption.
        replace (la ^ S (S (p + q))) with (la ^ S p * la ^ S q) by (rewrite <- pow_add; f_equal; lia). ring.
      - intros p i k Hi Hk. now rewrite (g_sym _ _ _ H p i k Hi Hk), (Psym i k Hi Hk).
      - intros p q i k Hi Hk.
        assert (NP : forall p q i k, In i l -> In k l -> rsum (fun j => N p j i * rsum (fun a => N q j a * P a k) l) m = la ^ S (p + q) * P i k).
        { intros p' q' a b Ha Hb'. rewrite (rsum_ext _ (fun j => rsum (fun z => N p' j a * (N q' j z * P z b)) l)) by (intros; now rewrite rsum_scal). rewrite rsum_swap, <- GP by assumption.
          apply rsum_ext. intros z Hz. rewrite <- (g_gram _ _ _ H p' q' a z Ha Hz), <- rsum_scal_r. apply rsum_ext. intros; ring. }
        assert (PNP : rsum (fun j => rsum (fun a => N p j a * P a i) l * rsum (fun a => N q j a * P a k) l) m = la ^ S (p + q) * P i k).
        { rewrite (rsum_ext _ (fun j => rsum (fun a => P a i * (N p j a * rsum (fun a => N q j a * P a k) l)) l)).
          - rewrite rsum_swap. rewrite (rsum_ext _ (fun a => la ^ S (p + q) * (P i a * P a k))).
            + rewrite rsum_scal, PP by assumption. reflexivity.
            + intros a Ha. rewrite rsum_scal, NP by assumption. rewrite (Psym a i Ha Hi). ring.
          - intros j _. rewrite <- rsum_scal_r. apply rsum_ext. intros; ring. }
        rewrite (rsum_ext _ (fun j => N p j i * N q j k + (-1 * (N p j i * rsum (fun a => N q j a * P a k) l) + (-1 * (N q j k * rsum (fun a => N p j a * P a i) l)
          + rsum (fun a => N p j a * P a i) l * rsum (fun a => N q j a * P a k) l)))) by (intros; ring).
        rewrite !rsum_plus, !rsum_scal, PNP, !NP, (g_gram _ _ _ H p q i k Hi Hk) by assumption. rewrite (Psym k i Hk Hi), (Nat.add_comm q p). ring.
      - intros i k Hi Hk. now rewrite (q_sym _ _ _ H i k Hi Hk), (Psym i k Hi Hk).
      - intros i k Hi Hk. rewrite (rsum_ext _ (fun j => Q i j * Q j k + (-1 * (Q i j * P j k) + (-1 * (P i j * Q j k) + P i j * P j k)))) by (intros; ring).
        rewrite !rsum_plus, !rsum_scal, QP, PQ, PP, (q_idem _ _ _ H i k Hi Hk) by assumption. ring.
      - intros p i k Hi Hk. rewrite (rsum_ext _ (fun j => Q i j * G p j k + (Q i j * P j k * - la ^ S p + (-1 * (P i j * G p j k) + P i j * P j k * la ^ S p)))) by (intros; ring).
        rewrite !rsum_plus, !rsum_scal, !rsum_scal_r, QP, PG, PP, (q_left _ _ _ H p i k Hi Hk) by assumption. ring.
    Qed.
  End Step.

  Theorem powers_expseq n : forall G N Q, gram G N Q -> trace Q <= INR n -> forall i k, In i l -> In k l -> expseq (fun p => G p i k).
  Proof.
    assert (TQ : forall G N Q, gram G N Q -> trace Q = frob l l Q Q).
    { intros G N Q H. unfold trace, frob. apply rsum_ext. intros i Hi. rewrite <- (q_idem _ _ _ H i i Hi Hi). apply rsum_ext. intros k Hk. now rewrite (q_sym _ _ _ H k i Hk Hi). }
    induction n as [|n IH]; intros G N Q H Hn i k Hi Hk.
    - assert (Z : frob l l Q Q = 0) by (pose proof (frob_nonneg l l Q); rewrite <- (TQ _ _ _ H) in *; cbn in Hn; lra).
      apply (expseq_ext (fun _ => 0)); [|apply expseq_zero]. intros p. rewrite <- (q_left _ _ _ H p i k Hi Hk). rewrite (rsum_ext _ (fun _ => 0)); [symmetry; apply rsum_zero|].
      intros j Hj. rewrite (frob_0 l l Q Z i j Hi Hj). ring.
    - destruct (Req_dec (trace (G 0%nat)) 0) as [Z|NZ].
      + apply (expseq_ext (fun _ => 0)); [|apply expseq_zero]. intros p. symmetry. exact (T_zero G N Q H Z p i k Hi Hk).
      + destruct (deflate G N Q H NZ) as (la & P & Hl & TP & H').
        apply (expseq_ext (fun p => (G p i k - la ^ S p * P i k) + la * P i k * la ^ p)); [intros; cbn [pow]; ring|]. apply expseq_plus; [|now apply expseq_pow].
        apply (IH _ _ _ H'); auto. unfold trace in *. rewrite S_INR in Hn.
        rewrite (rsum_ext _ (fun i => Q i i + -1 * P i i)) by (intros; ring). rewrite rsum_plus, rsum_scal. lra.
  Qed.
End Matrices.

(** ** Powers of M^T M applied to a vector *)
Section Powers.
  Context {I J : Type} {EI : Eqb I}.
  Variables (l : list I) (m : list J) (M : J -> I -> R).
  Hypothesis ND : NoDup l.
  (** v, then M^T M v, and so on *)
  Definition mtm (v : I -> R) (i : I) : R := rsum (fun j => M j i * rsum (fun k => M j k * v k) l) m.
  Fixpoint iter_mtm (v : I -> R) (p : nat) : I -> R := match p with O => v | S q => mtm (iter_mtm v q) end.
  Definition unit_vec (a i : I) : R := if beq a i then 1 else 0.
  Definition power (p : nat) (i k : I) : R := iter_mtm (unit_vec k) p i.
  Lemma rsum_unit_aux (f : I -> R) a l' : NoDup l' -> rsum (fun i => f i * unit_vec a i) l' = if mem a l' then f a else 0.
  Proof.
    induction l' as [|b t IH]; intros D; [reflexivity|]. inversion D as [|? ? NI D']; subst. cbn [rsum]. rewrite (IH D'). unfold unit_vec at 1.
    change (mem a (b :: t)) with (beq b a || mem a t)%bool || change (mem a (b :: t)) with (beq a b || mem a t)%bool.
    destruct (beq_spec a b) as [->|NE].
    - destruct (mem b t) eqn:E; [apply mem_In in E; contradiction|]. rewrite ?beq_refl. cbn. ring.
    - try (replace (beq b a) with false by (symmetry; destruct (beq_spec b a); congruence)). cbn. ring.
  Qed.
  Lemma mtm_ext v w i : (forall k, In k l -> v k = w k) -> mtm v i = mtm w i.
  Proof. intros E. unfold mtm. apply rsum_ext. intros j _. f_equal. apply rsum_ext. intros k Hk. now rewrite E. Qed.
  Lemma mtm_sum {A} (f : A -> I -> R) c la i : mtm (fun k => rsum (fun a => f a k * c a) la) i = rsum (fun a => mtm (f a) i * c a) la.
  Proof.
    unfold mtm. rewrite (rsum_ext _ (fun j => rsum (fun a => M j i * (rsum (fun k => M j k * f a k) l) * c a) la)).
    - rewrite rsum_swap. apply rsum_ext. intros a _. rewrite rsum_scal_r. reflexivity.
    - intros j _. rewrite (rsum_ext _ (fun k => rsum (fun a => M j k * f a k * c a) la)) by (intros; rewrite <- rsum_scal; apply rsum_ext; intros; ring).
      rewrite rsum_swap, <- rsum_scal. apply rsum_ext. intros a _. rewrite rsum_scal_r. ring.
  Qed.
  Lemma iter_power v p i : In i l -> iter_mtm v p i = rsum (fun k => power p i k * v k) l.
  Proof.
    revert i. induction p as [|p IH]; intros i Hi.
    - cbn [iter_mtm]. unfold power. cbn [iter_mtm]. rewrite (rsum_ext _ (fun k => v k * unit_vec i k)).
      + rewrite rsum_unit_aux by exact ND. apply mem_In in Hi. now rewrite Hi.
      + intros k _. unfold unit_vec. destruct (beq_spec k i) as [->|NE]; [rewrite beq_refl; ring|]. destruct (beq_spec i k); [congruence|ring].
    - cbn [iter_mtm]. rewrite (mtm_ext _ (fun i => rsum (fun k => power p i k * v k) l) i IH), (mtm_sum (fun a k => power p k a) v l i). reflexivity.
  Qed.
  Lemma power_add p q i k : In i l -> In k l -> rsum (fun j => power p i j * power q j k) l = power (p + q) i k.
  Proof.
    intros Hi Hk. rewrite <- (iter_power (fun j => power q j k) p i Hi). unfold power at 2. clear Hi. revert i. induction p as [|p IH]; intros i; [reflexivity|].
    cbn [iter_mtm Nat.add]. apply mtm_ext. intros; apply IH.
  Qed.
  Lemma power_one i k : In i l -> In k l -> power 1 i k = rsum (fun j => M j i * M j k) m.
  Proof.
    intros Hi Hk. unfold power. cbn [iter_mtm]. unfold mtm. apply rsum_ext. intros j _. rewrite (rsum_unit_aux (M j) k l ND). apply mem_In in Hk. now rewrite Hk.
  Qed.
  Lemma power_sym p i k : In i l -> In k l -> power p i k = power p k i.
  Proof.
    revert i k. induction p as [|p IH]; intros i k Hi Hk.
    - unfold power. cbn. unfold unit_vec. destruct (beq_spec k i) as [->|NE]; [now rewrite beq_refl|]. destruct (beq_spec i k); [congruence|reflexivity].
    - change (S p) with (1 + p)%nat at 1. rewrite <- power_add by assumption. replace (S p) with (p + 1)%nat by lia. rewrite <- power_add by assumption.
      apply rsum_ext. intros j Hj. rewrite (IH j k Hj Hk), !power_one by assumption. rewrite Rmult_comm. f_equal. apply rsum_ext. intros; ring.
  Qed.
  Definition npower (p : nat) (j : J) (i : I) : R := rsum (fun k => M j k * power p k i) l.
  Lemma power_gram : gram l m (fun p => power (S p)) npower unit_vec.
  Proof.
    assert (US : forall i k, unit_vec i k = unit_vec k i) by (intros i k; unfold unit_vec; destruct (beq_spec i k) as [->|NE]; [now rewrite beq_refl|]; destruct (beq_spec k i); congruence).
    assert (UL : forall f i, In i l -> rsum (fun j => unit_vec i j * f j) l = f i).
    { intros f i Hi. rewrite (rsum_ext _ (fun j => f j * unit_vec i j)) by (intros; ring). rewrite rsum_unit_aux by exact ND. apply mem_In in Hi. now rewrite Hi. }
    constructor.
    - intros p q i k Hi Hk. rewrite power_add by assumption. f_equal. lia.
    - intros p i k Hi Hk. now apply power_sym.
    - intros p q i k Hi Hk. unfold npower.
      replace (S (p + q)) with (p + (1 + q))%nat by lia. rewrite <- (power_add p (1 + q) i k Hi Hk).
      rewrite (rsum_ext _ (fun j => rsum (fun a => power p i a * rsum (fun b => M j a * M j b * power q b k) l) l)).
      + rewrite rsum_swap. apply rsum_ext. intros a Ha. rewrite rsum_scal. f_equal. rewrite <- power_add by assumption. rewrite rsum_swap. apply rsum_ext. intros b Hb.
        rewrite rsum_scal_r, power_one by assumption. reflexivity.
      + intros j _. rewrite <- rsum_scal_r. apply rsum_ext. intros a Ha. rewrite (power_sym p i a Hi Ha), <- !rsum_scal. apply rsum_ext. intros; ring.
    - intros; apply US.
    - intros i k Hi Hk. apply (UL (fun j => unit_vec j k) i Hi).
    - intros p i k Hi Hk. apply (UL (fun j => power (S p) j k) i Hi).
  Qed.
  (** every coordinate of (M^T M)^(p+1) v is a sum of exponentials *)
  Theorem iter_expseq v i : In i l -> expseq (fun p => iter_mtm v (S p) i).
  Proof.
    intros Hi. apply (expseq_ext (fun p => rsum (fun k => v k * power (S p) i k) l)).
    - intros p. rewrite iter_power by exact Hi. apply rsum_ext. intros; ring.
    - apply (expseq_sum (fun k p => v k * power (S p) i k)). intros k Hk. apply expseq_scal.
      apply (powers_expseq l m (length l) (fun p => power (S p)) npower unit_vec power_gram); auto.
      right. unfold trace. rewrite (rsum_ext _ (fun _ => 1)) by (intros; unfold unit_vec; now rewrite beq_refl). rewrite rsum_const. ring.
  Qed.
End Powers.
