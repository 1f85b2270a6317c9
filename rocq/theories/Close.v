(** Relative errors of products, quotients, powers and sums of positive doubles, measured in units of 2^-52 on a logarithmic scale. *)
From Coq Require Import Reals Lra Psatz.
From Flocq Require Import Core IEEE754.BinarySingleNaN.
From Verif Require Import Base Num Float Accuracy PropsFloat PropsAvlog64 PropsAccuracy.
Local Open Scope R_scope.

Definition unit52 : R := bpow radix2 (-52).
(** [a] and [b] are positive and differ by a factor of at most exp(K 2^-52) either way *)
Definition close (K a b : R) : Prop := 0 < a /\ 0 < b /\ Rabs (ln a - ln b) <= K * unit52.
Lemma unit_pos : 0 < unit52. Proof. apply bpow_gt_0. Qed.
Lemma unit_small : unit52 <= 1 / 4. Proof. unfold unit52. replace (1 / 4) with (bpow radix2 (-2)) by (cbn; lra). apply bpow_le. lia. Qed.
Lemma close_nonneg K a b : close K a b -> 0 <= K.
Proof. intros (_ & _ & H). pose proof (Rabs_pos (ln a - ln b)). pose proof unit_pos. destruct (Rle_dec 0 K) as [|N]; [assumption|]. exfalso. assert (K * unit52 < 0) by nra. lra. Qed.
Lemma close_refl a : 0 < a -> close 0 a a.
Proof. intros H. unfold close. replace (ln a - ln a) with 0 by ring. rewrite Rabs_R0. lra. Qed.
Lemma close_sym K a b : close K a b -> close K b a.
Proof. intros (A & B & H). unfold close. rewrite Rabs_minus_sym. auto. Qed.
Lemma close_mono K J a b : K <= J -> close K a b -> close J a b.
Proof. intros L (A & B & H). pose proof unit_pos. unfold close. split; [exact A|]. split; [exact B|]. eapply Rle_trans; [exact H|]. apply Rmult_le_compat_r; lra. Qed.
Lemma close_trans K J a b c : close K a b -> close J b c -> close (K + J) a c.
Proof.
  intros (A & B & H) (_ & C & H'). unfold close. split; [exact A|]. split; [exact C|]. replace (ln a - ln c) with ((ln a - ln b) + (ln b - ln c)) by ring. eapply Rle_trans; [apply Rabs_triang|]. lra.
Qed.
Lemma close_mul K J a b a' b' : close K a b -> close J a' b' -> close (K + J) (a * a') (b * b').
Proof.
  intros (A & B & H) (A' & B' & H'). unfold close. split; [now apply Rmult_lt_0_compat|]. split; [now apply Rmult_lt_0_compat|]. rewrite !ln_mult by assumption.
  replace (ln a + ln a' - (ln b + ln b')) with ((ln a - ln b) + (ln a' - ln b')) by ring. eapply Rle_trans; [apply Rabs_triang|]. lra.
Qed.
Lemma close_inv K a b : close K a b -> close K (/ a) (/ b).
Proof.
  intros (A & B & H). unfold close. split; [now apply Rinv_0_lt_compat|]. split; [now apply Rinv_0_lt_compat|]. rewrite !ln_Rinv by assumption. replace (- ln a - - ln b) with (- (ln a - ln b)) by ring. now rewrite Rabs_Ropp.
Qed.
Lemma close_div K J a b a' b' : close K a b -> close J a' b' -> close (K + J) (a / a') (b / b').
Proof. intros H H'. unfold Rdiv. apply close_mul; [exact H|now apply close_inv]. Qed.
Lemma close_scale K c a b : 0 < c -> close K a b -> close K (c * a) (c * b).
Proof. intros Hc H. rewrite <- (Rplus_0_l K). apply close_mul; [now apply close_refl|exact H]. Qed.
Lemma close_pow g K a b : 0 <= g -> close K a b -> close (g * K) (Rpower a g) (Rpower b g).
Proof.
  intros Hg (A & B & H). unfold close. split; [apply exp_pos|]. split; [apply exp_pos|]. unfold Rpower. rewrite !ln_exp. replace (g * ln a - g * ln b) with (g * (ln a - ln b)) by ring.
  rewrite Rabs_mult, (Rabs_pos_eq g) by exact Hg. rewrite Rmult_assoc. now apply Rmult_le_compat_l.
Qed.
(** the same with factors *)
Lemma ln_le_exp a b k : 0 < a -> 0 < b -> (ln a - ln b <= k <-> a <= b * exp k).
Proof.
  intros A B. split; intros H.
  - rewrite <- (exp_ln a), <- (exp_ln b) by assumption. rewrite <- exp_plus. destruct (Req_dec (ln a) (ln b + k)) as [->|N]; [lra|]. left. apply exp_increasing. lra.
  - assert (P : 0 < exp k) by apply exp_pos. assert (L : ln a <= ln (b * exp k)). { destruct (Req_dec a (b * exp k)) as [->|N]; [lra|]. left. apply ln_increasing; lra. } rewrite ln_mult, ln_exp in L by assumption. lra.
Qed.
Lemma close_iff K a b : 0 < a -> 0 < b -> (close K a b <-> a <= b * exp (K * unit52) /\ b <= a * exp (K * unit52)).
Proof.
  intros A B. rewrite <- !ln_le_exp by assumption. unfold close. split.
  - intros (_ & _ & H). apply Rabs_le_inv in H. lra.
  - intros H. split; [exact A|]. split; [exact B|]. apply Rabs_le. lra.
Qed.
Lemma close_add K a b a' b' : close K a b -> close K a' b' -> close K (a + a') (b + b').
Proof.
  intros H H'. pose proof H as (A & B & _). pose proof H' as (A' & B' & _). apply close_iff in H, H'; try assumption. apply close_iff; [lra|lra|]. rewrite !Rmult_plus_distr_r. lra.
Qed.
Lemma close_rsum {A} K (f g : A -> R) l : l <> [] -> (forall x, In x l -> close K (f x) (g x)) -> close K (rsum f l) (rsum g l).
Proof.
  induction l as [|x l IH]; [congruence|]. intros _ H. destruct l as [|y l].
  - cbn. rewrite !Rplus_0_r. apply H. now left.
  - change (close K (f x + rsum f (y :: l)) (g x + rsum g (y :: l))). apply close_add; [apply H; now left|]. apply IH; [discriminate|]. intros z Hz. apply H. now right.
Qed.
Lemma ulp_exp n : ulp1 ^ n <= exp (INR n * unit52).
Proof.
  induction n as [|n IH]; [cbn; rewrite Rmult_0_l, exp_0; lra|]. cbn [pow]. rewrite S_INR, Rmult_plus_distr_r, Rmult_1_l, Rplus_comm, exp_plus.
  apply Rmult_le_compat; [pose proof ulp1_gt; lra|left; apply up_pos| |exact IH]. unfold ulp1. apply exp_ineq1_le.
Qed.
Lemma close_rel n a b : 0 < b -> rel n a b -> close (INR n) a b.
Proof.
  intros Pb R. pose proof (rel_pos _ _ _ R Pb) as Pa. destruct R as (_ & _ & H1 & H2). apply close_iff; [exact Pa|exact Pb|]. pose proof (ulp_exp n) as U. split; (eapply Rle_trans; [eassumption|]); apply Rmult_le_compat_l; lra.
Qed.
Lemma exp_lin y : 0 <= y <= 1 / 2 -> exp y <= 1 + 2 * y.
Proof.
  intros H. pose proof (exp_ineq1_le (- y)) as E. assert (P : exp (- y) * exp y = 1) by (rewrite <- exp_plus; replace (- y + y) with 0 by ring; apply exp_0). pose proof (exp_pos y) as Q.
  assert ((1 + - y) * exp y <= 1) by (rewrite <- P; apply Rmult_le_compat_r; lra). apply (Rmult_le_reg_l (1 - y)); [lra|]. nra.
Qed.
Lemma close_accurate K x v r : K * unit52 <= 1 / 2 -> isf v r -> close K r x -> accurate (2 * (K * unit52)) x v.
Proof.
  intros HK [Fv Ev] H. pose proof (close_nonneg _ _ _ H) as K0. pose proof H as (A & B & _). apply close_iff in H; [|exact A|exact B]. pose proof unit_pos as U. assert (N0 : 0 <= K * unit52) by (apply Rmult_le_pos; lra).
  pose proof (exp_lin (K * unit52) (conj N0 HK)) as E. split; [exact Fv|]. rewrite Ev. set (y := K * unit52) in *. apply Rabs_le. destruct H as (H1 & H2). split; [|nra].
  assert (x <= r * (1 + 2 * y)) by nra. nra.
Qed.
Lemma accurate_close x v : 0 < x -> accurate unit52 x v -> close 2 (B2R64 v) x.
Proof.
  intros Hx [Fv H]. apply Rabs_le_inv in H. pose proof unit_pos as U. pose proof unit_small as U4. set (u := unit52) in *.
  assert (Pv : 0 < B2R64 v) by nra. apply close_iff; [exact Pv|exact Hx|]. fold u. pose proof (exp_ineq1_le (2 * u)) as E. split; [nra|]. assert (x <= B2R64 v * (1 + 2 * u)) by nra. nra.
Qed.

(** ** the double [v] lies between 2^lo and 2^hi and is close to x *)
Definition dbl (lo hi : Z) (K : R) (v : b64) (x : R) : Prop := exists r, isf v r /\ bpow radix2 lo <= r <= bpow radix2 hi /\ close K r x.
Lemma dbl_pos lo hi K v x : dbl lo hi K v x -> 0 < x. Proof. now intros (r & _ & _ & _ & H & _). Qed.
Lemma dbl_wide lo hi lo' hi' K K' v x : (lo' <= lo)%Z -> (hi <= hi')%Z -> K <= K' -> dbl lo hi K v x -> dbl lo' hi' K' v x.
Proof.
  intros H1 H2 H3 (r & Hr & B & C). exists r. split; [exact Hr|]. split; [|now apply (close_mono K)]. apply (bpow_le radix2) in H1, H2. lra.
Qed.
Lemma dbl_eq lo hi K v x y : x = y -> dbl lo hi K v x -> dbl lo hi K v y. Proof. now intros ->. Qed.
Lemma dbl_one : dbl 0 0 0 (ofZ64 1) 1.
Proof. exists 1. split; [exact one64|]. split; [change (bpow radix2 0) with 1; lra|apply close_refl; lra]. Qed.
Lemma dbl_one_mul lo hi K v x : dbl lo hi K v x -> dbl lo hi K (Bmult mode_NE (ofZ64 1) v) x.
Proof. intros (r & Hr & B & C). exists r. split; [apply one_mul64; [exact Hr|pose proof (bpow_gt_0 radix2 lo); lra]|auto]. Qed.
Lemma dbl_mul lo hi lo' hi' K K' v w x y : dbl lo hi K v x -> dbl lo' hi' K' w y -> (-1022 <= lo + lo')%Z -> (hi + hi' < 1024)%Z ->
  dbl (lo + lo') (hi + hi') (K + K' + 1) (Bmult mode_NE v w) (x * y).
Proof.
  intros (r & Hr & B & C) (q & Hq & B' & C') H1 H2. pose proof (bpow_gt_0 radix2 lo) as P. pose proof (bpow_gt_0 radix2 lo') as P'.
  assert (lo <= hi)%Z by (apply (le_bpow radix2); lra). assert (lo' <= hi')%Z by (apply (le_bpow radix2); lra).
  destruct (mul_up64 v w r q hi hi' Hr Hq) as (A1 & A2); [lra|lra|lia|]. exists (rnd (r * q)). split; [exact A1|]. split; [split; [apply mul_low; [tauto|tauto|lia]|tauto]|].
  rewrite (Rplus_comm (K + K')). apply close_trans with (r * q); [|now apply close_mul]. apply (close_rel 1); [apply Rmult_lt_0_compat; lra|]. apply rnd_rel. apply Rle_trans with (bpow radix2 (lo + lo')); [apply bpow_le; lia|]. rewrite bpow_plus. apply Rmult_le_compat; lra.
Qed.
Lemma dbl_div lo hi lo' hi' K K' v w x y : dbl lo hi K v x -> dbl lo' hi' K' w y -> (-1022 <= lo - hi')%Z -> (hi - lo' < 1024)%Z ->
  dbl (lo - hi') (hi - lo') (K + K' + 1) (Bdiv mode_NE v w) (x / y).
Proof.
  intros (r & Hr & B & C) (q & Hq & B' & C') H1 H2. pose proof (bpow_gt_0 radix2 lo) as P. pose proof (bpow_gt_0 radix2 lo') as P'.
  assert (lo <= hi)%Z by (apply (le_bpow radix2); lra). assert (lo' <= hi')%Z by (apply (le_bpow radix2); lra).
  destruct (div_up64 v w r q hi lo' Hr Hq) as (A1 & A2); [lra|lra|lia|]. exists (rnd (r / q)). split; [exact A1|]. split; [split; [apply div_low; [tauto|lra|lia]|tauto]|].
  rewrite (Rplus_comm (K + K')). apply close_trans with (r / q); [|now apply close_div]. apply (close_rel 1); [apply Rdiv_lt_0_compat; lra|]. apply rnd_rel.
  apply Rle_trans with (bpow radix2 (lo - hi')); [apply bpow_le; lia|]. unfold Z.sub, Rdiv. rewrite bpow_plus, bpow_opp. apply Rmult_le_compat; try lra; [left; apply Rinv_0_lt_compat, bpow_gt_0|apply Rinv_le; lra].
Qed.
Lemma dbl_sum_m {A} m lo hi K (h : A -> b64) (f : A -> R) l : (0 <= m <= 53)%Z -> (-1022 <= lo)%Z -> (hi <= 900)%Z -> l <> [] -> (Z.of_nat (length l) <= 2 ^ m)%Z -> (forall x, In x l -> dbl lo hi K (h x) (f x)) ->
  dbl lo (hi + m) (K + INR (length l)) (fold_left (Bplus mode_NE) (map h l) (ofZ64 0)) (rsum f l).
Proof.
  intros Hm L1 L2 Hl Hn H. assert (Hn53 : (Z.of_nat (length l) <= 2 ^ 53)%Z) by (etransitivity; [exact Hn|apply Z.pow_le_mono_r; lia]). pose proof (bpow_gt_0 radix2 lo) as P.
  assert (HL : (lo <= hi)%Z). { destruct l as [|x l]; [congruence|]. destruct (H x (or_introl eq_refl)) as (r & _ & B & _). apply (le_bpow radix2). lra. }
  assert (W : forall x, In x l -> within 0 (bpow radix2 hi) (h x)) by (intros x Hx; destruct (H x Hx) as (r & Hr & B & _); exists r; split; [exact Hr|lra]).
  destruct (sum_rel hi h (fun x => B2R64 (h x)) 0 l) as (r & Hr & R & _); [lia|exact Hn53|exact W|intros x q Hx Hq; rewrite (proj2 Hq); apply rel_refl; destruct (W x Hx) as (q' & Hq' & B); rewrite (isf_fun _ _ _ Hq Hq'); lra|].
  destruct (sum64 hi (map h l) 0 (ofZ64 0) 0) as (r0 & H0 & H1 & H3); [lia|rewrite map_length; exact Hn53|exact zero64|cbn; lra|intros y Hy; apply in_map_iff in Hy; destruct Hy as (z & <- & Hz); now apply W|].
  pose proof (isf_fun _ _ _ H0 Hr) as ->. rewrite map_length in H1. cbn [Nat.add] in H1, R.
  exists r. split; [exact Hr|]. split; [split|].
  - destruct l as [|x l]; [congruence|]. destruct (H x (or_introl eq_refl)) as (q & Hq & B & _). pose proof (H3 (h x) q (in_map h (x :: l) x (or_introl eq_refl)) Hq). lra.
  - eapply Rle_trans; [apply H1|]. rewrite Z.add_comm, bpow_plus. apply Rmult_le_compat_r; [apply bpow_ge_0|]. rewrite INR_IZR_INZ. rewrite <- (IZR_Zpower radix2 m) by lia. apply IZR_le. exact Hn.
  - rewrite Rplus_comm. assert (Cs : close K (rsum (fun x => B2R64 (h x)) l) (rsum f l)).
    { apply close_rsum; [exact Hl|]. intros x Hx. destruct (H x Hx) as (q & Hq & _ & C). now rewrite (proj2 Hq). }
    apply close_trans with (rsum (fun x => B2R64 (h x)) l); [|exact Cs]. apply close_rel; [apply Cs|exact R].
Qed.

Lemma dbl_sum {A} lo hi K (h : A -> b64) (f : A -> R) l : (-1022 <= lo)%Z -> (hi <= 900)%Z -> l <> [] -> (Z.of_nat (length l) <= 2 ^ 20)%Z -> (forall x, In x l -> dbl lo hi K (h x) (f x)) ->
  dbl lo (hi + 20) (K + INR (length l)) (fold_left (Bplus mode_NE) (map h l) (ofZ64 0)) (rsum f l).
Proof. apply dbl_sum_m. lia. Qed.

(** what is assumed of the C library's pow: x^g is right to a relative error of 2^-52 (for x in the range that matters) *)
Definition pow_accurate (L : libm) (g : b64) : Prop :=
  forall x, double_in (bpow radix2 (-224)) (bpow radix2 162) x -> accurate (/ 2 ^ 52) (Rpower (B2R64 x) (B2R64 g)) (lm_pow L x g).
Lemma unit52_eq : unit52 = / 2 ^ 52.
Proof. unfold unit52. change (-52)%Z with (Z.opp 52). rewrite bpow_opp. f_equal. change (bpow radix2 52) with (IZR (2 ^ 52)). rewrite (pow_IZR 2 52). f_equal. Qed.
Lemma Rpower_mono a b g : 0 < a <= b -> 0 <= g -> Rpower a g <= Rpower b g.
Proof. intros (Ha & Hab) Hg. unfold Rpower. assert (L : ln a <= ln b) by (destruct (Req_dec a b) as [->|N]; [lra|left; apply ln_increasing; lra]). destruct (Req_dec (g * ln a) (g * ln b)) as [->|N]; [lra|]. left. apply exp_increasing. assert (g * ln a <= g * ln b) by (apply Rmult_le_compat_l; lra). lra. Qed.
Lemma ln2_pos : 0 < ln 2. Proof. rewrite <- ln_1. apply ln_increasing; lra. Qed.
Lemma ln_bpow e : ln (bpow radix2 e) = IZR e * ln 2.
Proof. rewrite bpow_powerRZ. replace (IZR radix2) with 2 by (cbn; lra). rewrite powerRZ_Rpower by lra. unfold Rpower. apply ln_exp. Qed.
Lemma pow_range x g : 0 <= g <= 2 -> bpow radix2 (-224) <= x <= bpow radix2 162 -> bpow radix2 (-448) <= Rpower x g <= bpow radix2 324.
Proof.
  intros Hg Hx. pose proof ln2_pos as L2. pose proof (bpow_gt_0 radix2 (-224)) as P. assert (Px : 0 < x) by lra.
  assert (L1 : IZR (-224) * ln 2 <= ln x). { rewrite <- ln_bpow. destruct (Req_dec x (bpow radix2 (-224))) as [->|N]; [lra|]. left. apply ln_increasing; lra. }
  assert (L3 : ln x <= IZR 162 * ln 2). { rewrite <- ln_bpow. destruct (Req_dec x (bpow radix2 162)) as [->|N]; [lra|]. left. apply ln_increasing; lra. }
  unfold Rpower. rewrite <- (exp_ln (bpow radix2 (-448))), <- (exp_ln (bpow radix2 324)) by apply bpow_gt_0. rewrite !ln_bpow.
  assert (M : forall a c, a <= c -> exp a <= exp c) by (intros a c [Q| ->]; [left; now apply exp_increasing|lra]). split; apply M; destruct (Rle_dec (ln x) 0); nra.
Qed.
Lemma dbl_pow L g K v x : 0 <= B2R64 g <= 2 -> pow_accurate L g -> dbl (-224) 162 K v x -> dbl (-449) 325 (B2R64 g * K + 2) (lm_pow L v g) (Rpower x (B2R64 g)).
Proof.
  intros Hg Hp (r & Hr & B & C). assert (D : double_in (bpow radix2 (-224)) (bpow radix2 162) v) by (apply within_double; exists r; auto). specialize (Hp v D). rewrite <- unit52_eq, (proj2 Hr) in Hp.
  pose proof (pow_range r (B2R64 g) Hg B) as (Y1 & Y2). set (y := Rpower r (B2R64 g)) in *. assert (Py : 0 < y) by apply exp_pos. pose proof (accurate_close y _ Py Hp) as Cy. destruct Hp as [Fp Hp].
  exists (B2R64 (lm_pow L v g)). split; [now apply isf_self|]. apply Rabs_le_inv in Hp. pose proof unit_pos as U. pose proof unit_small as U4. split; [split|].
  - replace (bpow radix2 (-448)) with (2 * bpow radix2 (-449)) in Y1 by (change 2 with (bpow radix2 1); rewrite <- bpow_plus; reflexivity). nra.
  - replace (bpow radix2 325) with (2 * bpow radix2 324) by (change 2 with (bpow radix2 1); rewrite <- bpow_plus; reflexivity). nra.
  - rewrite Rplus_comm. apply close_trans with y; [exact Cy|]. apply close_pow; [lra|exact C].
Qed.
(** division by the maximum: exact up to a common factor near 1 *)
Lemma dbl_norm {A} L lo hi K mu (h : A -> b64) (f : A -> R) l : l <> [] -> 0 < mu -> K * unit52 <= 1 / 4 -> (forall x, In x l -> dbl lo hi K (h x) (mu * f x)) -> (forall x, In x l -> bpow radix2 (-80) <= f x / rmax f l) ->
  exists m lam, pymax (F:=B64 L) (map h l) = Some m /\ close K lam 1 /\ forall x, In x l -> dbl (-82) 0 (K + 1) (Bdiv mode_NE (h x) m) (lam * (f x / rmax f l)).
Proof.
  intros Hl Pm HK Hh Low. assert (Pf : forall x, In x l -> 0 < f x). { intros x Hx. pose proof (dbl_pos _ _ _ _ _ (Hh x Hx)) as Q. apply (Rmult_lt_reg_l mu); [exact Pm|]. lra. }
  assert (PM : 0 < rmax f l). { destruct l as [|x l]; [congruence|]. apply (rmax_pos f (x :: l) x); [now left|apply Pf; now left]. }
  destruct (pymax64 L (map h l)) as (m & q & E & Hm & Hin & Hall). { destruct l; [congruence|discriminate]. } { intros y Hy. apply in_map_iff in Hy. destruct Hy as (x & <- & Hx). destruct (Hh x Hx) as (r & Hr & _). eauto. }
  assert (Pq : 0 < q /\ exists x, In x l /\ close K q (mu * f x)).
  { apply in_map_iff in Hin. destruct Hin as (x & Ex & Hx). destruct (Hh x Hx) as (r & Hr & _ & C). rewrite Ex in Hr. rewrite (isf_fun _ _ _ Hm Hr). split; [apply C|eauto]. }
  destruct Pq as (Pq & x1 & Hx1 & C1).
  assert (Cq : close K q (mu * rmax f l)).
  { apply close_iff; [exact Pq|now apply Rmult_lt_0_compat|]. pose proof (exp_pos (K * unit52)) as PE. split.
    - apply close_iff in C1; [|exact Pq|apply C1]. eapply Rle_trans; [apply C1|]. apply Rmult_le_compat_r; [lra|]. apply Rmult_le_compat_l; [lra|now apply rmax_ge].
    - destruct (rmax_In f l Hl) as (y & Hy & Ey). rewrite Ey. destruct (Hh y Hy) as (r & Hr & _ & C). pose proof (Hall (h y) r (in_map h l y Hy) Hr) as Lr. pose proof C as C'. apply close_iff in C'; [|apply C|apply C]. eapply Rle_trans; [apply C'|]. apply Rmult_le_compat_r; lra. }
  set (lam := mu * rmax f l / q).
  assert (Cl : close K lam 1). { rewrite <- (Rplus_0_r K). replace 1 with (q / q) by (field; lra). unfold lam. apply close_div; [now apply close_sym|now apply close_refl]. }
  exists m, lam. split; [exact E|]. split; [exact Cl|]. intros x Hx. destruct (Hh x Hx) as (r & Hr & B & C). pose proof C as (Pr & _).
  assert (Cr : close K (r / q) (lam * (f x / rmax f l))).
  { replace (lam * (f x / rmax f l)) with (mu * f x / q) by (unfold lam; field; lra). rewrite <- (Rplus_0_r K). apply close_div; [exact C|now apply close_refl]. }
  assert (Lq : r <= q) by (apply (Hall (h x)); [now apply in_map|exact Hr]).
  assert (Q1 : 0 <= r / q <= 1). { split; [left; now apply Rdiv_lt_0_compat|]. apply (Rmult_le_reg_r q); [exact Pq|]. unfold Rdiv. rewrite Rmult_assoc, Rinv_l; lra. }
  assert (Q2 : bpow radix2 (-82) <= r / q).
  { pose proof (Low x Hx) as Lx. pose proof (close_nonneg _ _ _ Cl) as K0. pose proof unit_pos as U. assert (N0 : 0 <= K * unit52) by (apply Rmult_le_pos; lra). pose proof (exp_lin (K * unit52) ltac:(lra)) as El. pose proof (exp_pos (K * unit52)) as PE.
    pose proof Cl as (Plam & _). apply close_iff in Cl; [|exact Plam|lra]. pose proof (proj1 Cr) as Prq. pose proof (proj1 (proj2 Cr)) as Pb. apply close_iff in Cr; [|exact Prq|exact Pb].
    replace (bpow radix2 (-80)) with (4 * bpow radix2 (-82)) in Lx by (change 4 with (bpow radix2 2); rewrite <- bpow_plus; reflexivity). pose proof (bpow_gt_0 radix2 (-82)) as P82.
    assert (E2 : exp (K * unit52) <= 2) by lra. set (e := exp (K * unit52)) in *. set (z := f x / rmax f l) in *. destruct Cl as (_ & Cl). destruct Cr as (_ & Cr). assert (1 <= lam * 2) by nra. assert (lam * z <= r / q * 2) by nra. nra. }
  exists (rnd (r / q)). split; [apply (div64 _ _ _ _ 1); [exact Hr|exact Hm|lra|lra|exact fmt_1|lra|change 1 with (bpow radix2 0); apply bpow_lt; lia]|].
  split; [split; [apply rnd_low; [lia|exact Q2]|change (bpow radix2 0) with 1; apply rnd_le_fmt; [exact fmt_1|lra]]|].
  rewrite Rplus_comm. apply close_trans with (r / q); [|exact Cr]. apply (close_rel 1); [now apply Rdiv_lt_0_compat|]. apply rnd_rel. apply Rle_trans with (bpow radix2 (-82)); [apply bpow_le; lia|exact Q2].
Qed.
