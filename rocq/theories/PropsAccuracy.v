(** C73: the doubles Sums and AverageLog report are the exact scores up to an explicit relative error. *)
From Coq Require Import Reals Lra Psatz.
From Flocq Require Import Core IEEE754.BinarySingleNaN.
From Verif Require Import Base Num Sparse Spec SpecAlg Dataset Ranking Results AlgTF DatasetProofs DatasetRep Iterators Algorithms Driver Rounds
  AlgRep AlgRounds PropsData PropsIter PropsRun PropsAlg Float PropsFloat PropsVote64 PropsResult Accuracy.
Local Open Scope R_scope.

Lemma ulp1_pow_le n : (Z.of_nat n <= 2 ^ 52)%Z -> ulp1 ^ n <= 4.
Proof.
  intros H. assert (G : forall k, ulp1 ^ k <= exp (INR k * bpow radix2 (-52))).
  { induction k as [|k IH]; [cbn; rewrite Rmult_0_l, exp_0; lra|]. rewrite S_INR, Rmult_plus_distr_r, Rmult_1_l, Rplus_comm, exp_plus. cbn [pow]. apply Rmult_le_compat.
    - pose proof ulp1_gt. lra.
    - left. apply up_pos.
    - unfold ulp1. apply exp_ineq1_le.
    - exact IH. }
  eapply Rle_trans; [apply G|]. assert (E : INR n * bpow radix2 (-52) <= 1).
  { replace 1 with (bpow radix2 52 * bpow radix2 (-52)) by (rewrite <- bpow_plus; reflexivity). apply Rmult_le_compat_r; [apply bpow_ge_0|]. rewrite INR_IZR_INZ. apply (IZR_le _ (2 ^ 52)). exact H. }
  apply Rle_trans with (exp 1); [|pose proof exp_le_3; lra]. destruct (Req_dec (INR n * bpow radix2 (-52)) 1) as [->|N]; [lra|]. left. apply exp_increasing. lra.
Qed.
Lemma isf_self x : fin64 x = true -> isf x (B2R64 x). Proof. intros H. now split. Qed.

(** ** dividing by the maximum *)
Section Norm.
  Variable L : libm.
  Context {A : Type}.
  Variables (g : A -> b64) (f : A -> R) (K : nat) (lam rho : R) (l : list A).
  Hypothesis Hl : l <> [].
  Hypothesis Plam : 0 < lam.
  Hypothesis Hg : forall x, In x l -> fin64 (g x) = true /\ rel K (B2R64 (g x)) (lam * f x).
  Hypothesis Hf : forall x, In x l -> 0 <= f x /\ (f x = 0 \/ rho * rmax f l <= f x).
  Hypothesis Pos : exists x, In x l /\ 0 < f x.
  Hypothesis HK : (2 * Z.of_nat K <= 2 ^ 52)%Z.
  Hypothesis Hrho : bpow radix2 (-900) <= rho.
  Notation M := (rmax f l).
  Lemma M_pos : 0 < M. Proof. destruct Pos as (x & Hx & P). eapply rmax_pos; eauto. Qed.
  Lemma by_max_norm : rmax (by_max l f) l = 1.
  Proof.
    rewrite (rmax_ext _ (fun x => / M * f x)) by (intros; unfold by_max, Rdiv; ring). rewrite rmax_scal by (left; apply Rinv_0_lt_compat, M_pos). apply Rinv_l. pose proof M_pos. lra.
  Qed.
  Lemma by_max_range x : In x l -> 0 <= by_max l f x <= 1 /\ (by_max l f x = 0 \/ rho <= by_max l f x).
  Proof.
    intros Hx. pose proof M_pos as P. destruct (Hf x Hx) as (F0 & F1). assert (Ip : 0 < / M) by now apply Rinv_0_lt_compat. unfold by_max, Rdiv. split; [split|].
    - apply Rmult_le_pos; lra.
    - rewrite <- (Rinv_r M) by lra. apply Rmult_le_compat_r; [lra|now apply rmax_ge].
    - destruct F1 as [->|F1]; [left; ring|right]. replace rho with (rho * M * / M) by (field; lra). apply Rmult_le_compat_r; lra.
  Qed.
  Lemma norm_rel : exists m mu, pymax (F:=B64 L) (map g l) = Some m /\ 0 < mu /\
    (forall x, In x l -> exists r, isf (Bdiv mode_NE (g x) m) r /\ 0 <= r <= 1 /\ rel (K + 1) r (mu * by_max l f x) /\ rel (2 * K + 1) r (by_max l f x) /\ (r = 0 \/ bpow radix2 (-902) <= r)) /\
    (exists x, In x l /\ 0 < by_max l f x).
  Proof.
    pose proof M_pos as PM.
    assert (Fn : forall y, In y (map g l) -> exists q, isf y q). { intros y Hy. apply in_map_iff in Hy. destruct Hy as (x & <- & Hx). exists (B2R64 (g x)). apply isf_self. now apply Hg. }
    destruct (pymax64 L (map g l)) as (m & q & E & Hm & Hin & Hall); [destruct l; cbn; congruence|exact Fn|].
    assert (Rq : rel K q (lam * M)).
    { assert (Pl : 0 <= lam) by lra. unfold rel. apply in_map_iff in Hin. destruct Hin as (x & Ex & Hx). destruct (Hg x Hx) as (Fx & R1). rewrite Ex in Fx, R1. rewrite (isf_fun _ _ _ (isf_self _ Fx) Hm) in R1. destruct R1 as (A1 & A2 & A3 & A4).
      split; [exact A1|]. split; [apply Rmult_le_pos; lra|]. split.
      - eapply Rle_trans; [exact A3|]. apply Rmult_le_compat_r; [left; apply up_pos|]. apply Rmult_le_compat_l; [lra|now apply rmax_ge].
      - destruct (rmax_In f l Hl) as (y & Hy & Ey). rewrite Ey. destruct (Hg y Hy) as (Fy & R2). eapply Rle_trans; [apply R2|]. apply Rmult_le_compat_r; [left; apply up_pos|]. apply (Hall (g y)); [now apply in_map|now apply isf_self]. }
    assert (PlM : 0 < lam * M) by now apply Rmult_lt_0_compat. pose proof (rel_pos _ _ _ Rq PlM) as Pq.
    exists m, (lam * M / q). split; [exact E|]. split; [now apply Rdiv_lt_0_compat|]. split.
    - intros x Hx. destruct (Hg x Hx) as (Fx & Rx). pose proof (isf_self _ Fx) as Ix. destruct (Hf x Hx) as (F0 & F1). destruct (by_max_range x Hx) as ((B0 & B1) & B2).
      set (qx := B2R64 (g x)) in *. assert (Lq : qx <= q) by (apply (Hall (g x)); [now apply in_map|exact Ix]). pose proof Rx as (Q0 & _).
      assert (Q1 : 0 <= qx / q <= 1). { split; [apply Rmult_le_pos; [exact Q0|left; now apply Rinv_0_lt_compat]|]. apply (Rmult_le_reg_r q); [exact Pq|]. unfold Rdiv. rewrite Rmult_assoc, Rinv_l; lra. }
      assert (R1 : rel K (qx / q) (lam * M / q * by_max l f x)). { replace (lam * M / q * by_max l f x) with (/ q * (lam * f x)) by (unfold by_max; field; lra). replace (qx / q) with (/ q * qx) by (unfold Rdiv; ring). apply rel_scale; [left; now apply Rinv_0_lt_compat|exact Rx]. }
      assert (R2 : rel (2 * K) (qx / q) (by_max l f x)). { replace (2 * K)%nat with (K + K)%nat by lia. replace (by_max l f x) with (lam * f x / (lam * M)) by (unfold by_max; field; lra). now apply rel_div. }
      assert (Low : qx / q = 0 \/ bpow radix2 (-902) <= qx / q).
      { destruct B2 as [Z|B2]; [left; exact (rel_zero _ _ _ R2 Z)|right]. destruct R2 as (_ & _ & _ & R2). pose proof (ulp1_pow_le (2 * K) ltac:(lia)) as U. pose proof (up_pos (2 * K)) as UP.
        assert (rho <= qx / q * 4) by (apply Rle_trans with (qx / q * ulp1 ^ (2 * K)); [lra|apply Rmult_le_compat_l; lra]).
        assert (E4 : bpow radix2 (-900) = 4 * bpow radix2 (-902)) by (change (-900)%Z with (2 + -902)%Z; rewrite bpow_plus; reflexivity). lra. }
      exists (rnd (qx / q)). split; [apply (div64 _ _ _ _ 1); [exact Ix|exact Hm|lra|lra|exact fmt_1|lra|change 1 with (bpow radix2 0); apply bpow_lt; lia]|].
      assert (R3 : rel 1 (rnd (qx / q)) (qx / q)). { destruct Low as [Z|Low]; [rewrite Z, (rnd_id 0 fmt_0); unfold rel; lra|]. apply rnd_rel. eapply Rle_trans; [|exact Low]. apply bpow_le. lia. }
      split; [split; [apply rnd_ge_fmt; [exact fmt_0|lra]|apply rnd_le_fmt; [exact fmt_1|lra]]|]. split; [rewrite Nat.add_comm; eapply rel_trans; eassumption|]. split; [rewrite Nat.add_comm; eapply rel_trans; eassumption|].
      destruct Low as [Z|Low]; [left; rewrite Z; apply rnd_id, fmt_0|right]. apply rnd_ge_fmt; [apply fmt_bpow; lia|exact Low].
    - destruct Pos as (x & Hx & Px). exists x. split; [exact Hx|]. now apply Rdiv_lt_0_compat.
  Qed.
End Norm.

(** ** Specification: the double [v] is a number whose relative distance from [x] is at most e *)
Definition accurate (e x : R) (v : b64) : Prop := is_finite v = true /\ Rabs (B2R64 v - x) <= e * x.
Lemma ulp1_pow_lin n : (Z.of_nat n <= 2 ^ 51)%Z -> ulp1 ^ n <= 1 + INR n * bpow radix2 (-51).
Proof.
  assert (E : bpow radix2 (-51) = 2 * bpow radix2 (-52)) by (change (-51)%Z with (1 + -52)%Z; rewrite bpow_plus; reflexivity). rewrite E. unfold ulp1. pose proof (bpow_gt_0 radix2 (-52)) as P.
  assert (Q : bpow radix2 51 * bpow radix2 (-52) = 1 / 2) by (rewrite <- bpow_plus; change (1 / 2) with (1 * bpow radix2 (-1)); rewrite Rmult_1_l; reflexivity). set (h := bpow radix2 (-52)) in *. clearbody h.
  induction n as [|n IH]; intros H; [cbn; lra|]. specialize (IH ltac:(lia)). assert (B : INR n * h <= 1 / 2). { rewrite <- Q. apply Rmult_le_compat_r; [lra|]. rewrite INR_IZR_INZ. apply (IZR_le _ (2 ^ 51)). lia. }
  cbn [pow]. rewrite S_INR. pose proof (pos_INR n). apply Rle_trans with ((1 + h) * (1 + INR n * (2 * h))); [apply Rmult_le_compat_l; lra|]. nra.
Qed.
Lemma rel_accurate n x r v : (Z.of_nat n <= 2 ^ 51)%Z -> isf v r -> rel n r x -> accurate (INR n * bpow radix2 (-51)) x v.
Proof.
  intros Hn [Fv Ev] (A & B & H1 & H2). split; [exact Fv|]. rewrite Ev. pose proof (ulp1_pow_lin n Hn) as U. assert (E0 : 0 <= INR n * bpow radix2 (-51)) by (apply Rmult_le_pos; [apply pos_INR|apply bpow_ge_0]).
  set (e := INR n * bpow radix2 (-51)) in *. apply Rabs_le. split; [|nra]. assert (x <= r * (1 + e)) by nra. nra.
Qed.

Section Accuracy.
  Context {S V W : Type} {ES : Eqb S} {EV : Eqb V} {EW : Eqb W}.
  Variable L : libm.
  Notation F := (B64 L).
  Notation data := (dataset S V W F).
  Notation claim := (V * W)%type.
  Notation result := (result S V W b64).
  Notation cap := (2 ^ 53)%Z.
  Variables (b : bool) (f : option (V -> W -> W -> option F)) (ts : list (S * V * W)) (d : data).
  Hypothesis Hb : build (F:=F) b f ts = Ok d.
  Hypothesis NE : ts <> [].
  Notation NS := (length (sources ts)).
  Notation NC := (length (claims ts)).
  Hypothesis Small_s : (Z.of_nat NS < cap)%Z.
  Hypothesis Small_c : (Z.of_nat NC <= cap)%Z.
  Let R0 : ds_rep (F:=F) ts f d := build_rep _ _ _ _ Hb.

  Lemma filter_len {A} (p : A -> bool) l : (length (filter p l) <= length l)%nat.
  Proof. induction l as [|x l IH]; cbn; [lia|]. destruct (p x); cbn; lia. Qed.
  Lemma supp_len c : (length (supporters ts c) <= NS)%nat. Proof. apply filter_len. Qed.
  Lemma cl_len s : (length (claims_of ts s) <= NC)%nat. Proof. apply filter_len. Qed.
  Lemma riv_len c : (length (rivals ts c) <= NC)%nat. Proof. apply filter_len. Qed.
  Lemma NS1 : 1 <= INR NS. Proof. pose proof (src_ne ts NE). apply (le_INR 1). destruct (sources ts); [congruence|cbn; lia]. Qed.
  Lemma NC1 : 1 <= INR NC. Proof. pose proof (cl_ne ts NE). apply (le_INR 1). destruct (claims ts); [congruence|cbn; lia]. Qed.

  (** The doubles [g] approximate the non-negative beliefs [x] up to a common factor and a relative error of K roundings; positive beliefs
      are at least [rho] times the largest one. *)
  Definition approx (K : nat) (rho : R) (g : claim -> b64) (x : claim -> R) : Prop :=
    (exists lam, 0 < lam /\ forall c, In c (claims ts) -> exists q, isf (g c) q /\ rel K q (lam * x c) /\ 0 <= q <= bpow radix2 53 /\ (q = 0 \/ bpow radix2 (-902) <= q)) /\
    (forall c, In c (claims ts) -> 0 <= x c /\ (x c = 0 \/ rho * rmax x (claims ts) <= x c)) /\
    (exists c, In c (claims ts) /\ 0 < x c).
  (** the same for trust scores before they are divided by their maximum *)
  Definition raw (K : nat) (lam rho : R) (tau : S -> b64) (t : S -> R) : Prop :=
    (forall s, In s (sources ts) -> exists q, isf (tau s) q /\ rel K q (lam * t s) /\ 0 <= q <= bpow radix2 200) /\
    (forall s, In s (sources ts) -> 0 <= t s /\ (t s = 0 \/ rho * rmax t (sources ts) <= t s)) /\
    (exists s, In s (sources ts) /\ 0 < t s).

  Lemma sum_one {A} e (g : A -> b64) (x : A -> R) K lam l : (-1074 <= e <= 900)%Z -> (Z.of_nat (length l) <= cap)%Z ->
    (forall s, In s l -> exists q, isf (g s) q /\ rel K q (lam * x s) /\ 0 <= q <= bpow radix2 e) ->
    exists r, isf (fold_left (Bplus mode_NE) (map (fun c => Bmult mode_NE (ofZ64 1) (g c)) l) (ofZ64 0)) r /\ rel (K + length l) r (lam * rsum x l) /\ 0 <= r <= bpow radix2 (e + 53).
  Proof.
    intros He Hl H. destruct (sum_rel e (fun s => Bmult mode_NE (ofZ64 1) (g s)) (fun s => lam * x s) K l He Hl) as (r & H1 & H2 & H3).
    - intros s Hs. destruct (H s Hs) as (q & Hq & _ & Bq). exists q. split; [apply one_mul64; [exact Hq|lra]|exact Bq].
    - intros s q Hs Hq. destruct (H s Hs) as (q' & Hq' & Rq & Bq). rewrite (isf_fun _ _ _ Hq (one_mul64 _ _ Hq' (proj1 Bq))). exact Rq.
    - exists r. rewrite rsum_scal in H2. auto.
  Qed.

  Lemma trust_total_low t rho : (forall s, In s (sources ts) -> 0 <= t s /\ (t s = 0 \/ rho * rmax t (sources ts) <= t s)) -> (exists s, In s (sources ts) /\ 0 < t s) -> 0 <= rho ->
    (forall c, In c (claims ts) -> 0 <= total_trust ts t c /\ (total_trust ts t c = 0 \/ rho / INR NS * rmax (total_trust ts t) (claims ts) <= total_trust ts t c)) /\
    (exists c, In c (claims ts) /\ 0 < total_trust ts t c).
  Proof.
    intros H (s0 & Hs0 & P0) Hrho. pose proof NS1 as N1. pose proof (rmax_pos t _ _ Hs0 P0) as PM.
    assert (Su : forall c s, In s (supporters ts c) -> In s (sources ts)) by (intros c s Q; unfold supporters in Q; apply filter_In in Q; tauto).
    assert (Z : forall c, 0 <= total_trust ts t c) by (intros c; apply rsum_nonneg; intros s Hs; apply H; eauto).
    assert (Up : rmax (total_trust ts t) (claims ts) <= INR NS * rmax t (sources ts)).
    { destruct (rmax_In (total_trust ts t) (claims ts) (cl_ne ts NE)) as (c & Hc & ->). unfold total_trust. apply Rle_trans with (rsum (fun _ => rmax t (sources ts)) (supporters ts c)).
      - apply rsum_le. intros s Hs. apply rmax_ge. eauto.
      - rewrite rsum_const. apply Rmult_le_compat_r; [lra|]. apply le_INR, supp_len. }
    split.
    - intros c Hc. split; [apply Z|]. destruct (Req_dec (total_trust ts t c) 0) as [E|N]; [now left|right].
      assert (Ex : exists s, In s (supporters ts c) /\ t s <> 0).
      { apply Classical_Prop.NNPP. intros Nx. apply N. unfold total_trust. rewrite (rsum_ext _ (fun _ => 0)); [apply rsum_zero|]. intros s Hs. apply Classical_Prop.NNPP. intros Q. apply Nx. eauto. }
      destruct Ex as (s & Hs & Ns). destruct (H s (Su c s Hs)) as (_ & [Q|Q]); [contradiction|]. apply Rle_trans with (rho * rmax t (sources ts)).
      + apply Rle_trans with (rho / INR NS * (INR NS * rmax t (sources ts))); [apply Rmult_le_compat_l; [apply Rmult_le_pos; [exact Hrho|left; apply Rinv_0_lt_compat; lra]|exact Up]|]. right. field. lra.
      + apply Rle_trans with (t s); [exact Q|]. apply (rsum_ge_In t (supporters ts c) s); [intros y Hy; apply H; eauto|exact Hs].
    - destruct (claims_of_ne ts s0 Hs0) as (c & Hc). apply claims_of_In in Hc. exists c. split; [apply claims_In; eauto|]. apply (rsum_pos t _ s0); [intros y Hy; apply H; eauto|now apply supporters_In|exact P0].
  Qed.
  Lemma finish_step K1 lam rho tau t : 0 < lam -> raw K1 lam rho tau t -> (2 * Z.of_nat (K1 + NS) <= 2 ^ 52)%Z -> bpow radix2 (-900) <= rho / INR NS ->
    exists m m', pymax (F:=F) (map tau (sources ts)) = Some m /\ pymax (F:=F) (map (tt64 ts tau) (claims ts)) = Some m' /\
      (forall s, In s (sources ts) -> exists r, isf (Bdiv mode_NE (tau s) m) r /\ rel (2 * K1 + 1) r (by_max (sources ts) t s)) /\
      (forall c, In c (claims ts) -> exists r, isf (Bdiv mode_NE (tt64 ts tau c) m') r /\ rel (2 * (K1 + NS) + 1) r (by_max (claims ts) (total_trust ts t) c)) /\
      approx (K1 + NS + 1) (rho / INR NS) (fun c => Bdiv mode_NE (tt64 ts tau c) m') (by_max (claims ts) (total_trust ts t)).
  Proof.
    intros Pl (H1 & H2 & H3) HK Hrho. pose proof NS1 as N1. pose proof (bpow_gt_0 radix2 (-900)) as PB.
    assert (Prho : bpow radix2 (-900) <= rho). { apply Rle_trans with (rho / INR NS); [exact Hrho|]. assert (rho = rho / INR NS * INR NS) by (field; lra). assert (0 < rho / INR NS) by lra. nra. }
    destruct (norm_rel L tau t K1 lam rho (sources ts) (src_ne ts NE) Pl) as (m & mu & Em & _ & Hm & _).
    { intros s Hs. destruct (H1 s Hs) as (q & Hq & Rq & _). split; [apply Hq|]. now rewrite (proj2 Hq). }
    { exact H2. } { exact H3. } { lia. } { exact Prho. }
    destruct (trust_total_low t rho H2 H3 ltac:(lra)) as (T2 & T3).
    assert (T1 : forall c, In c (claims ts) -> fin64 (tt64 ts tau c) = true /\ rel (K1 + NS) (B2R64 (tt64 ts tau c)) (lam * total_trust ts t c)).
    { intros c Hc. destruct (sum_one 200 tau t K1 lam (supporters ts c)) as (r & Hr & Rr & _); [lia|pose proof (supp_len c); lia|intros s Hs; apply H1; unfold supporters in Hs; apply filter_In in Hs; tauto|].
      fold (tt64 ts tau c) in Hr. split; [apply Hr|]. rewrite (proj2 Hr). eapply rel_mono; [|exact Rr]. pose proof (supp_len c). lia. }
    destruct (norm_rel L (tt64 ts tau) (total_trust ts t) (K1 + NS) lam (rho / INR NS) (claims ts) (cl_ne ts NE) Pl T1 T2 T3 HK Hrho) as (m' & mu' & Em' & Pmu' & Hm' & Hp').
    exists m, m'. split; [exact Em|]. split; [exact Em'|]. split; [|split].
    - intros s Hs. destruct (Hm s Hs) as (r & Hr & _ & _ & Rr & _). eauto.
    - intros c Hc. destruct (Hm' c Hc) as (r & Hr & _ & _ & Rr & _). eauto.
    - split; [|split].
      + exists mu'. split; [exact Pmu'|]. intros c Hc. destruct (Hm' c Hc) as (r & Hr & Br & Rr & _ & Lr). exists r. split; [exact Hr|]. split; [exact Rr|]. split; [|exact Lr]. split; [apply Br|]. apply Rle_trans with (bpow radix2 0); [apply Br|apply bpow_le; lia].
      + intros c Hc. rewrite (by_max_norm (total_trust ts t) (rho / INR NS) (claims ts) T3) || rewrite by_max_norm by assumption. rewrite Rmult_1_r. destruct (by_max_range (total_trust ts t) (rho / INR NS) (claims ts) T2 T3 c Hc) as ((B0 & _) & B2). split; [exact B0|exact B2].
      + exact Hp'.
  Qed.

  (** total beliefs, weighted *)
  Lemma belief_total_low x rho (w t : S -> R) wlo whi : (forall c, In c (claims ts) -> 0 <= x c /\ (x c = 0 \/ rho * rmax x (claims ts) <= x c)) -> (exists c, In c (claims ts) /\ 0 < x c) -> 0 <= rho ->
    0 < wlo -> wlo <= whi -> (forall s, In s (sources ts) -> 0 <= w s <= whi /\ (w s = 0 \/ wlo <= w s)) -> (forall s, In s (sources ts) -> t s = w s * total_belief ts x s) ->
    forall s, In s (sources ts) -> 0 <= t s /\ (t s = 0 \/ rho * (wlo / whi) / INR NC * rmax t (sources ts) <= t s).
  Proof.
    intros H (c0 & Hc0 & P0) Hrho Plo Lw Hw Ht. pose proof NC1 as N1. pose proof (rmax_pos x _ _ Hc0 P0) as PM.
    assert (Su : forall c s, In c (claims_of ts s) -> In c (claims ts)) by (intros c s Q; unfold claims_of in Q; apply filter_In in Q; tauto).
    assert (Z : forall s, 0 <= total_belief ts x s) by (intros s; apply rsum_nonneg; intros c Hc; apply H; eauto).
    assert (Up : rmax t (sources ts) <= whi * (INR NC * rmax x (claims ts))).
    { destruct (rmax_In t (sources ts) (src_ne ts NE)) as (s & Hs & ->). rewrite Ht by exact Hs. apply Rmult_le_compat; [apply Hw; exact Hs|apply Z|apply Hw; exact Hs|]. unfold total_belief. apply Rle_trans with (rsum (fun _ => rmax x (claims ts)) (claims_of ts s)).
      - apply rsum_le. intros c Hc. apply rmax_ge. eauto.
      - rewrite rsum_const. apply Rmult_le_compat_r; [lra|]. apply le_INR, cl_len. }
    intros s Hs. rewrite Ht by exact Hs. destruct (Hw s Hs) as ((W0 & W1) & W2). split; [apply Rmult_le_pos; [exact W0|apply Z]|].
    destruct W2 as [->|W2]; [left; ring|]. destruct (Req_dec (total_belief ts x s) 0) as [->|N]; [left; ring|right].
    assert (Ex : exists c, In c (claims_of ts s) /\ x c <> 0).
    { apply Classical_Prop.NNPP. intros Nx. apply N. unfold total_belief. rewrite (rsum_ext _ (fun _ => 0)); [apply rsum_zero|]. intros c Hc. apply Classical_Prop.NNPP. intros Q. apply Nx. eauto. }
    destruct Ex as (c & Hc & Nc). destruct (H c (Su c s Hc)) as (_ & [Q|Q]); [contradiction|].
    apply Rle_trans with (rho * (wlo / whi) / INR NC * (whi * (INR NC * rmax x (claims ts)))).
    - apply Rmult_le_compat_l; [|exact Up]. unfold Rdiv. repeat apply Rmult_le_pos; try lra; left; apply Rinv_0_lt_compat; lra.
    - replace (rho * (wlo / whi) / INR NC * (whi * (INR NC * rmax x (claims ts)))) with (wlo * (rho * rmax x (claims ts))) by (field; lra). apply Rmult_le_compat; [lra|apply Rmult_le_pos; lra|exact W2|].
      apply Rle_trans with (x c); [exact Q|]. apply (rsum_ge_In x (claims_of ts s) c); [intros y Hy; apply H; eauto|exact Hc].
  Qed.
  Lemma tb_rel K lam x g s : In s (sources ts) -> (forall c, In c (claims ts) -> exists q, isf (g c) q /\ rel K q (lam * x c) /\ 0 <= q <= bpow radix2 53 /\ (q = 0 \/ bpow radix2 (-902) <= q)) ->
    exists r, isf (tb64 ts g s) r /\ rel (K + NC) r (lam * total_belief ts x s) /\ 0 <= r <= bpow radix2 106 /\ (r = 0 \/ bpow radix2 (-902) <= r).
  Proof.
    intros Hs H. assert (Su : forall c, In c (claims_of ts s) -> In c (claims ts)) by (intros c Q; unfold claims_of in Q; apply filter_In in Q; tauto). pose proof (cl_len s) as CL.
    destruct (sum_one 53 g x K lam (claims_of ts s)) as (r & Hr & Rr & Br); [lia|lia|intros c Hc; destruct (H c (Su c Hc)) as (q & A1 & A2 & A3 & _); eauto|].
    fold (tb64 ts g s) in Hr. exists r. split; [exact Hr|]. split; [eapply rel_mono; [|exact Rr]; lia|]. split; [exact Br|].
    destruct (Req_dec r 0) as [->|N]; [now left|right].
    destruct (row64 ts 53 g (claims_of ts s)) as (r' & Hr' & _ & Mx); [lia|lia|intros c Hc; destruct (H c (Su c Hc)) as (q & A1 & A2 & A3 & _); exists q; auto|]. fold (tb64 ts g s) in Hr'. rewrite (isf_fun _ _ _ Hr' Hr) in Mx.
    assert (Ex : exists c, In c (claims_of ts s) /\ x c <> 0).
    { apply Classical_Prop.NNPP. intros Nx. apply N. apply (rel_zero _ _ _ Rr). unfold total_belief. rewrite (rsum_ext _ (fun _ => 0)); [rewrite rsum_zero; ring|]. intros c Hc. apply Classical_Prop.NNPP. intros Q. apply Nx. eauto. }
    destruct Ex as (c & Hc & Nc). destruct (H c (Su c Hc)) as (q & A1 & A2 & A3 & [->|A4]).
    - exfalso. destruct A2 as (_ & B1 & _ & B2). rewrite Rmult_0_l in B2. assert (E : lam * x c = 0) by (apply Rle_antisym; assumption). apply Rmult_integral in E. destruct E as [->|E]; [|contradiction].
      apply N. apply (rel_zero _ _ _ Rr). ring.
    - apply Rle_trans with q; [exact A4|]. now apply (Mx c).
  Qed.
  Lemma some_tb x : (forall c, In c (claims ts) -> 0 <= x c) -> (exists c, In c (claims ts) /\ 0 < x c) -> exists s, In s (sources ts) /\ 0 < total_belief ts x s.
  Proof.
    intros H (c & Hc & P). destruct (supporters_ne ts c Hc) as (s & Hs). apply supporters_In in Hs. exists s. split; [eapply says_source; eauto|]. apply (rsum_pos x _ c); [intros y Hy; apply H; unfold claims_of in Hy; apply filter_In in Hy; tauto|now apply claims_of_In|exact P].
  Qed.

  (** ** priors *)
  Lemma quot_rel x y a q : isf x a -> isf y q -> bpow radix2 (-500) <= a <= bpow radix2 200 -> bpow radix2 (-200) <= q <= bpow radix2 500 -> isf (Bdiv mode_NE x y) (rnd (a / q)) /\ rel 1 (rnd (a / q)) (a / q).
  Proof.
    intros Hx Hy Ba Bq. pose proof (bpow_gt_0 radix2 (-500)). pose proof (bpow_gt_0 radix2 (-200)).
    assert (Up : a / q <= bpow radix2 400). { replace (bpow radix2 400) with (bpow radix2 200 * / bpow radix2 (-200)) by (rewrite <- bpow_opp, <- bpow_plus; reflexivity). unfold Rdiv. apply Rmult_le_compat; [lra|left; apply Rinv_0_lt_compat; lra|lra|]. apply Rinv_le; lra. }
    assert (Lo : bpow radix2 (-1000) <= a / q). { replace (bpow radix2 (-1000)) with (bpow radix2 (-500) * / bpow radix2 500) by (rewrite <- bpow_opp, <- bpow_plus; reflexivity). unfold Rdiv. apply Rmult_le_compat; [lra|left; apply Rinv_0_lt_compat; lra|lra|]. apply Rinv_le; lra. }
    pose proof (bpow_gt_0 radix2 (-1000)). split.
    - apply (div64 _ _ _ _ (bpow radix2 400)); [exact Hx|exact Hy|lra|lra|apply fmt_bpow; lia|exact Up|apply bpow_lt; lia].
    - apply rnd_rel. eapply Rle_trans; [|exact Lo]. apply bpow_le. lia.
  Qed.
  Hypothesis HD : (2 * Z.of_nat (NS + NC + 1) <= 2 ^ 52)%Z.
  Lemma NS_up : INR NS <= bpow radix2 51. Proof. rewrite INR_IZR_INZ. apply (IZR_le _ (2 ^ 51)). lia. Qed.
  Lemma NC_up : INR NC <= bpow radix2 51. Proof. rewrite INR_IZR_INZ. apply (IZR_le _ (2 ^ 51)). lia. Qed.
  Lemma mk_approx lo hi g x : 0 < lo -> hi <= INR NS -> hi <= lo * (INR NS * INR NC) -> bpow radix2 (-200) <= lo ->
    (forall c, In c (claims ts) -> lo <= x c <= hi) -> (forall c, In c (claims ts) -> exists q, isf (g c) q /\ rel (NC + 1) q (x c)) -> approx (NC + 1) (1 / (INR NS * INR NC)) g x.
  Proof.
    intros Plo Hhi Hr Llo Hx Hg. pose proof NC1 as N1. pose proof NS1 as N2. pose proof NS_up as U. split; [|split].
    - exists 1. split; [lra|]. intros c Hc. destruct (Hg c Hc) as (q & Hq & Rq). exists q. rewrite Rmult_1_l. split; [exact Hq|]. split; [exact Rq|]. destruct Rq as (Q0 & _ & Q1 & Q2). pose proof (Hx c Hc) as Bx. pose proof (ulp1_pow_le (NC + 1) ltac:(lia)) as U4. pose proof (up_pos (NC + 1)) as U0. split; [split; [exact Q0|]|right].
      + apply Rle_trans with (bpow radix2 51 * 4); [|right; change (bpow radix2 53) with (bpow radix2 (51 + 2)); rewrite bpow_plus; reflexivity]. eapply Rle_trans; [exact Q1|]. apply Rmult_le_compat; lra.
      + assert (x c <= q * 4) by (eapply Rle_trans; [exact Q2|]; apply Rmult_le_compat_l; lra). assert (E : bpow radix2 (-902) * 4 <= bpow radix2 (-200)) by (change 4 with (bpow radix2 2); rewrite <- bpow_plus; apply bpow_le; lia). lra.
    - intros c Hc. pose proof (Hx c Hc) as Bx. split; [lra|right]. assert (M : rmax x (claims ts) <= hi) by (destruct (rmax_In x (claims ts) (cl_ne ts NE)) as (c' & Hc' & ->); now apply Hx).
      apply Rle_trans with lo; [|lra]. assert (P : 0 < INR NS * INR NC) by nra. apply (Rmult_le_reg_l (INR NS * INR NC)); [exact P|]. replace (INR NS * INR NC * (1 / (INR NS * INR NC) * rmax x (claims ts))) with (rmax x (claims ts)) by (field; lra). lra.
    - destruct (claims ts) as [|c l] eqn:Ec; [exfalso; now apply (cl_ne ts NE)|]. exists c. split; [now left|]. pose proof (Hx c (or_introl eq_refl)). lra.
  Qed.
  Lemma NC_four : ulp1 ^ NC <= 4. Proof. apply ulp1_pow_le. lia. Qed.
  Lemma votes_isf c : isf (tt64 ts (fun _ => ofZ64 1) c) (n_supporters ts c).
  Proof. exact (votes64 ts Small_s c). Qed.
  Lemma votes_range c : In c (claims ts) -> 1 <= n_supporters ts c <= INR NS.
  Proof. intros Hc. split; [|apply le_INR, supp_len]. destruct (supporters_ne ts c Hc) as (s & Hs). apply (le_INR 1). destruct (supporters ts c); [destruct Hs|cbn; lia]. Qed.
  Lemma prior_rel p bel x0 : prior_beliefs (F:=F) p d = Some bel -> prior_spec ts p = Some x0 -> exists g, bel = map g (claims ts) /\ approx (NC + 1) (1 / (INR NS * INR NC)) g x0.
  Proof.
    pose proof NC1 as N1. pose proof NS1 as N2. pose proof NS_up as U. pose proof NC_up as U'.
    assert (Sc : source_counts (F:=F) d = map (tt64 ts (fun _ => ofZ64 1)) (claims ts)).
    { unfold source_counts. rewrite (rep_ns _ _ _ R0), (ones64 L). exact (scT64 L b f ts d Hb (fun _ => ofZ64 1)). }
    assert (RivC : forall c c', In c' (rivals ts c) -> In c' (claims ts)) by (intros c c' Hc; unfold rivals in Hc; apply filter_In in Hc; tauto).
    assert (B200 : bpow radix2 (-200) <= 1 / 4) by (change (1 / 4) with (1 * bpow radix2 (-2)); rewrite Rmult_1_l; apply bpow_le; lia).
    assert (BB : bpow radix2 51 * bpow radix2 51 * bpow radix2 (-200) <= 1) by (rewrite <- !bpow_plus; change 1 with (bpow radix2 0); apply bpow_le; lia).
    assert (BN : INR NS * INR NC * bpow radix2 (-200) <= 1). { eapply Rle_trans; [|exact BB]. apply Rmult_le_compat_r; [apply bpow_ge_0|]. apply Rmult_le_compat; lra. }
    assert (B1 : bpow radix2 (-500) <= 1 <= bpow radix2 200) by (change 1 with (bpow radix2 0); split; apply bpow_le; lia).
    assert (BNS : INR NS <= bpow radix2 200) by (apply Rle_trans with (bpow radix2 51); [exact U|apply bpow_le; lia]).
    assert (BNC : INR NC <= bpow radix2 200) by (apply Rle_trans with (bpow radix2 51); [exact U'|apply bpow_le; lia]).
    assert (B5 : bpow radix2 200 <= bpow radix2 500) by (apply bpow_le; lia).
    destruct p; cbn [prior_beliefs prior_spec]; intros [= <-] [= <-].
    - exists (fun _ => @lit F 1 2). split; [unfold vfull; rewrite (rep_nc _ _ _ R0); apply (repeat_map (@lit F 1 2))|].
      apply (mk_approx (1 / 2) (1 / 2)); [lra|lra|nra|lra|intros; lra|]. intros c _. assert (H2 : isf (ofZ64 2) 2) by (apply (ofZ64_isf 2); lia).
      destruct (quot_rel (ofZ64 1) (ofZ64 2) 1 2 one64 H2 B1) as (A1 & A2); [change 2 with (bpow radix2 1); split; apply bpow_le; lia|]. exists (rnd (1 / 2)). split; [exact A1|]. eapply rel_mono; [|exact A2]. lia.
    - rewrite Sc. pose proof (mut64 L b f ts d Hb (tt64 ts (fun _ => ofZ64 1))) as Em. change (num F) with b64 in *. rewrite Em. clear Em. exists (fun c => Bdiv mode_NE (tt64 ts (fun _ => ofZ64 1) c) (tr64 ts (tt64 ts (fun _ => ofZ64 1)) c)).
      split; [unfold vdiv; apply (zipw_map2 (@n_div F))|].
      assert (Sg : forall c, In c (claims ts) -> n_supporters ts c <= rsum (n_supporters ts) (rivals ts c) <= INR NC * INR NS).
      { intros c Hc. split; [apply (rsum_ge_In (n_supporters ts)); [intros; apply pos_INR|now apply rivals_self]|]. apply Rle_trans with (rsum (fun _ => INR NS) (rivals ts c)); [apply rsum_le; intros c' Hc'; apply votes_range; eauto|]. rewrite rsum_const. apply Rmult_le_compat_r; [lra|]. apply le_INR, riv_len. }
      assert (PP : 0 < INR NS * INR NC) by nra.
      apply (mk_approx (1 / (INR NS * INR NC)) 1); [apply Rdiv_lt_0_compat; lra|lra|right; field; lra| | |].
      + apply (Rmult_le_reg_l (INR NS * INR NC)); [exact PP|]. replace (INR NS * INR NC * (1 / (INR NS * INR NC))) with 1 by (field; lra). exact BN.
      + intros c Hc. pose proof (votes_range c Hc) as Vc. pose proof (Sg c Hc) as Gc. set (sg := rsum (n_supporters ts) (rivals ts c)) in *. split.
        * apply (Rmult_le_reg_r (INR NS * INR NC * sg)); [apply Rmult_lt_0_compat; lra|]. replace (1 / (INR NS * INR NC) * (INR NS * INR NC * sg)) with sg by (field; lra). replace (n_supporters ts c / sg * (INR NS * INR NC * sg)) with (n_supporters ts c * (INR NC * INR NS)) by (field; lra). nra.
        * apply (Rmult_le_reg_r sg); [lra|]. unfold Rdiv. rewrite Rmult_assoc, Rinv_l; lra.
      + intros c Hc. pose proof (votes_range c Hc) as Vc. pose proof (Sg c Hc) as Gc.
        destruct (sum_one 53 (tt64 ts (fun _ => ofZ64 1)) (n_supporters ts) 0 1 (rivals ts c)) as (r & Hr & Rr & Br); [lia|pose proof (riv_len c); lia| |].
        { intros c' Hc'. exists (n_supporters ts c'). split; [apply votes_isf|]. pose proof (votes_range c' (RivC _ _ Hc')) as Vc'. rewrite Rmult_1_l. split; [apply rel_refl; lra|]. split; [lra|]. apply Rle_trans with (bpow radix2 51); [lra|apply bpow_le; lia]. }
        fold (tr64 ts (tt64 ts (fun _ => ofZ64 1)) c) in Hr. rewrite Rmult_1_l in Rr. cbn [Nat.add] in Rr. apply (rel_mono _ NC) in Rr; [|apply riv_len].
        assert (Lr : 1 / 4 <= r). { destruct Rr as (Q0 & _ & _ & Q2). pose proof NC_four as U4. assert (rsum (n_supporters ts) (rivals ts c) <= r * 4) by (eapply Rle_trans; [exact Q2|]; apply Rmult_le_compat_l; lra). lra. }
        destruct (quot_rel _ _ _ _ (votes_isf c) Hr) as (A1 & A2); [lra| |].
        { split; [lra|]. apply Rle_trans with (bpow radix2 (53 + 53)); [apply Br|apply bpow_le; lia]. }
        exists (rnd (n_supporters ts c / r)). split; [exact A1|]. rewrite Nat.add_comm. apply (rel_trans 1 NC) with (n_supporters ts c / r); [exact A2|]. apply (rel_div 0 NC); [lra|apply rel_refl; lra|exact Rr].
    - rewrite Sc. exists (tt64 ts (fun _ => ofZ64 1)). split; [reflexivity|]. apply (mk_approx 1 (INR NS)); [lra|lra|nra|lra|intros c Hc; now apply votes_range|].
      intros c Hc. exists (n_supporters ts c). split; [apply votes_isf|]. apply (rel_mono 0); [lia|]. apply rel_refl. pose proof (votes_range c Hc). lra.
    - rewrite (rep_nc _ _ _ R0), (ones64 L). pose proof (mut64 L b f ts d Hb (fun _ => ofZ64 1)) as Em. change (num F) with b64 in *. rewrite Em. clear Em. exists (fun c => Bdiv mode_NE (ofZ64 1) (tr64 ts (fun _ => ofZ64 1) c)).
      split; [unfold sdivv; rewrite map_map; reflexivity|].
      assert (Ln : forall c, In c (claims ts) -> 1 <= INR (length (rivals ts c)) <= INR NC). { intros c Hc. split; [|apply le_INR, riv_len]. pose proof (rivals_self ts c Hc) as Q. apply (le_INR 1). destruct (rivals ts c); [destruct Q|cbn; lia]. }
      apply (mk_approx (1 / INR NC) 1); [apply Rdiv_lt_0_compat; lra|lra| | | |].
      + replace (1 / INR NC * (INR NS * INR NC)) with (INR NS) by (field; lra). lra.
      + apply (Rmult_le_reg_l (INR NC)); [lra|]. replace (INR NC * (1 / INR NC)) with 1 by (field; lra). apply Rle_trans with (bpow radix2 51 * bpow radix2 (-200)); [apply Rmult_le_compat_r; [apply bpow_ge_0|exact U']|]. rewrite <- bpow_plus. change 1 with (bpow radix2 0). apply bpow_le. lia.
      + intros c Hc. pose proof (Ln c Hc). split.
        * unfold Rdiv. rewrite !Rmult_1_l. apply Rinv_le; lra.
        * apply (Rmult_le_reg_r (INR (length (rivals ts c)))); [lra|]. unfold Rdiv. rewrite Rmult_assoc, Rinv_l; lra.
      + intros c Hc. pose proof (Ln c Hc) as Lc. assert (Hr : isf (tr64 ts (fun _ => ofZ64 1) c) (INR (length (rivals ts c)))) by (apply (count_exact (rivals ts c) 0); [pose proof (riv_len c); cbn [Nat.add]; lia|exact zero64]).
        destruct (quot_rel _ _ _ _ one64 Hr B1) as (A1 & A2); [split; lra|]. exists (rnd (1 / INR (length (rivals ts c)))). split; [exact A1|]. eapply rel_mono; [|exact A2]. lia.
  Qed.

  (** ** Sums *)
  Notation D := (NS + NC + 1)%nat.
  Lemma sums_step_rel K rho (t0 : vec F) g x : approx K rho g (snd x) -> (2 * Z.of_nat (K + NC + NS) <= 2 ^ 52)%Z -> bpow radix2 (-900) <= rho / (INR NC * INR NS) ->
    exists t g', round (F:=F) Sums d (t0, map g (claims ts)) = UNext t0 (map t (sources ts)) (map t (sources ts), map g' (claims ts)) /\
      (forall s, In s (sources ts) -> exists r, isf (t s) r /\ rel (2 * (K + D)) r (fst (sums_step ts x) s)) /\
      (forall c, In c (claims ts) -> exists r, isf (g' c) r /\ rel (2 * (K + D)) r (snd (sums_step ts x) c)) /\
      approx (K + D) (rho / (INR NC * INR NS)) g' (snd (sums_step ts x)).
  Proof.
    intros ((lam & Pl & Hg) & Hx & Px) HK Hrho. pose proof NC1 as N1. pose proof NS1 as N2. pose proof (bpow_gt_0 radix2 (-900)) as PB.
    assert (Er : rho / (INR NC * INR NS) = rho / INR NC / INR NS) by (field; lra). rewrite Er in Hrho |- *.
    assert (Prho : 0 <= rho). { assert (E2 : rho = rho / INR NC / INR NS * (INR NC * INR NS)) by (field; lra). rewrite E2. apply Rmult_le_pos; nra. }
    assert (Rw : raw (K + NC) lam (rho / INR NC) (tb64 ts g) (total_belief ts (snd x))).
    { split; [|split].
      - intros s Hs. destruct (tb_rel K lam (snd x) g s Hs Hg) as (r & A1 & A2 & A3 & _). exists r. split; [exact A1|]. split; [exact A2|]. split; [apply A3|]. apply Rle_trans with (bpow radix2 106); [apply A3|apply bpow_le; lia].
      - pose proof (belief_total_low (snd x) rho (fun _ => 1) (total_belief ts (snd x)) 1 1 Hx Px Prho ltac:(lra) ltac:(lra) ltac:(intros; lra) ltac:(intros; lra)) as Q. replace (rho * (1 / 1) / INR NC) with (rho / INR NC) in Q by (field; lra). exact Q.
      - apply some_tb; [intros c Hc; now apply Hx|exact Px]. }
    destruct (finish_step (K + NC) lam (rho / INR NC) _ _ Pl Rw HK Hrho) as (m & m' & Em & Em' & H1 & H2 & H3).
    exists (fun s => Bdiv mode_NE (tb64 ts g s) m), (fun c => Bdiv mode_NE (tt64 ts (tb64 ts g) c) m'). split; [|split; [|split]].
    - cbn [round]. unfold sums_upd. rewrite (sc64 L b f ts d Hb), (scT64 L b f ts d Hb). change (num F) with b64 in *. rewrite Em, Em'. unfold vdivs. rewrite !map_map. reflexivity.
    - intros s Hs. destruct (H1 s Hs) as (r & A1 & A2). exists r. split; [exact A1|]. eapply rel_mono; [|exact A2]. lia.
    - intros c Hc. destruct (H2 c Hc) as (r & A1 & A2). exists r. split; [exact A1|]. eapply rel_mono; [|exact A2]. lia.
    - replace (K + D)%nat with (K + NC + NS + 1)%nat by lia. exact H3.
  Qed.
  Lemma sums_scores_rel p X0 x0 : init (F:=F) Sums p d = Some X0 -> prior_spec ts p = Some x0 -> forall k, (2 * Z.of_nat ((k + 1) * D) <= 2 ^ 52)%Z -> (INR NS * INR NC) ^ (k + 1) <= bpow radix2 900 ->
    exists t g, scores (F:=F) Sums d X0 k = (t, map g (claims ts)) /\ approx (NC + 1 + k * D) (1 / (INR NS * INR NC) ^ (k + 1)) g (snd (rounds (sums_step ts) ((fun _ => 0), x0) k)) /\
      (k <> 0%nat -> exists t', t = map t' (sources ts) /\
        (forall s, In s (sources ts) -> exists r, isf (t' s) r /\ rel (2 * ((k + 1) * D)) r (fst (rounds (sums_step ts) ((fun _ => 0), x0) k) s)) /\
        (forall c, In c (claims ts) -> exists r, isf (g c) r /\ rel (2 * ((k + 1) * D)) r (snd (rounds (sums_step ts) ((fun _ => 0), x0) k) c))).
  Proof.
    intros E0 Ex. pose proof NC1 as N1. pose proof NS1 as N2. assert (PN : 1 <= INR NS * INR NC) by nra.
    cbn [init] in E0. destruct (prior_beliefs p d) as [bel|] eqn:Ep; [|discriminate]. cbn in E0. injection E0 as E0'.
    destruct (prior_rel p bel x0 Ep Ex) as (g0 & Eg & H0). subst bel. induction k as [|k IH]; intros HK HB.
    - exists (vzeros (F:=F) (num_sources d)), g0. cbn [scores rounds snd]. split; [symmetry; exact E0'|]. split; [|congruence]. rewrite Nat.add_0_l, pow_1, Nat.mul_0_l, Nat.add_0_r. exact H0.
    - destruct IH as (t & g & E & Hg & _); [lia| |].
      { eapply Rle_trans; [|exact HB]. apply Rle_pow; [exact PN|lia]. }
      set (x := rounds (sums_step ts) ((fun _ => 0), x0) k) in *.
      assert (Erho : 1 / (INR NS * INR NC) ^ (k + 1) / (INR NC * INR NS) = 1 / (INR NS * INR NC) ^ (Datatypes.S k + 1)).
      { replace (Datatypes.S k + 1)%nat with (Datatypes.S (k + 1)) by lia. cbn [pow]. assert (Q : (INR NS * INR NC) ^ (k + 1) <> 0) by (apply pow_nonzero; lra). field. repeat split; try exact Q; lra. }
      destruct (sums_step_rel (NC + 1 + k * D) (1 / (INR NS * INR NC) ^ (k + 1)) t g x Hg) as (t' & g' & Er & H1 & H2 & H3).
      { nia. }
      { rewrite Erho. change (-900)%Z with (Z.opp 900). rewrite bpow_opp. unfold Rdiv. rewrite Rmult_1_l. apply Rinv_le; [|exact HB]. apply pow_lt. lra. }
      assert (Er2 : round Sums d (scores Sums d X0 k) = UNext t (map t' (sources ts)) (map t' (sources ts), map g' (claims ts))) by (rewrite E; exact Er).
      cbn [scores rounds]. fold x. rewrite Er2. exists (map t' (sources ts)), g'. split; [reflexivity|]. split.
      + rewrite Erho in H3. replace (NC + 1 + Datatypes.S k * D)%nat with (NC + 1 + k * D + D)%nat by lia. exact H3.
      + intros _. exists t'. split; [reflexivity|]. split.
        * intros s Hs. destruct (H1 s Hs) as (r & A1 & A2). exists r. split; [exact A1|]. eapply rel_mono; [|exact A2]. nia.
        * intros c Hc. destruct (H2 c Hc) as (r & A1 & A2). exists r. split; [exact A1|]. eapply rel_mono; [|exact A2]. nia.
  Qed.

  (** ** AverageLog *)
  Notation D' := (NS + NC + 5)%nat.
  (** the C library's logarithm is right to a relative error of 2^-52 on the integers up to the number of claims *)
  Definition log_accurate : Prop := forall n, (1 <= n <= NC)%nat -> accurate (bpow radix2 (-52)) (ln (INR n)) (lm_ln L (ofZ64 (Z.of_nat n))).
  Hypothesis Hlog : log_accurate.
  Notation cnt := (tb64 ts (fun _ => ofZ64 1)).
  Definition wt (s : S) : R := ln (n_claims ts s) / n_claims ts s.
  Definition wt64 (s : S) : b64 := Bdiv mode_NE (lm_ln L (cnt s)) (cnt s).
  Lemma cnt_range s : In s (sources ts) -> (1 <= length (claims_of ts s) <= NC)%nat.
  Proof. intros Hs. pose proof (cl_len s). destruct (claims_of_ne ts s Hs) as (c & Hc). destruct (claims_of ts s); [destruct Hc|cbn in *; lia]. Qed.
  Lemma cnt_isf s : isf (cnt s) (n_claims ts s).
  Proof. apply (count_exact (claims_of ts s) 0); [pose proof (cl_len s); cbn [Nat.add]; lia|exact zero64]. Qed.
  Lemma accurate_rel x v : 0 <= x -> accurate (bpow radix2 (-52)) x v -> rel 2 (B2R64 v) x.
  Proof.
    intros Hx [_ H]. apply Rabs_le_inv in H. unfold rel, ulp1. cbn [pow]. rewrite Rmult_1_r. pose proof (bpow_gt_0 radix2 (-52)) as P.
    assert (Q : bpow radix2 (-52) <= 1 / 4) by (change (1 / 4) with (1 * bpow radix2 (-2)); rewrite Rmult_1_l; apply bpow_le; lia). set (h := bpow radix2 (-52)) in *. clearbody h. split; [nra|]. split; [exact Hx|]. split; [nra|].
    assert (A : (1 - h) * x <= B2R64 v) by lra. assert (G : 1 <= (1 - h) * ((1 + h) * (1 + h))) by nra. apply Rle_trans with ((1 - h) * x * ((1 + h) * (1 + h))); [nra|]. apply Rmult_le_compat_r; [nra|exact A].
  Qed.
  Lemma ln_le_half y : 1 <= y -> ln y <= y / 2.
  Proof.
    intros Hy. assert (P : 0 < sqrt y) by (apply sqrt_lt_R0; lra). assert (E : y = sqrt y * sqrt y) by (symmetry; apply sqrt_sqrt; lra).
    assert (L1 : ln (sqrt y) <= sqrt y - 1). { pose proof (exp_ineq1_le (ln (sqrt y))) as Q. rewrite exp_ln in Q by exact P. lra. }
    assert (Ln : ln y = ln (sqrt y) + ln (sqrt y)) by (rewrite <- ln_mult by exact P; now rewrite <- E).
    assert (Q : 0 <= (sqrt y - 2) * (sqrt y - 2)) by exact (Rle_0_sqr (sqrt y - 2)). assert (Q2 : (sqrt y - 2) * (sqrt y - 2) = y - 4 * sqrt y + 4) by (rewrite E at 3; ring). lra.
  Qed.
  Lemma ln2_half : 1 / 2 <= ln 2.
  Proof.
    pose proof (exp_ineq1_le (- ln 2)) as Q. rewrite exp_Ropp, exp_ln in Q by lra. lra.
  Qed.
  Lemma ln_count n : (2 <= n)%nat -> 1 / 2 <= ln (INR n).
  Proof. intros H. apply Rle_trans with (ln 2); [exact ln2_half|]. assert (2 <= INR n) by (apply (le_INR 2); exact H). destruct (Req_dec (INR n) 2) as [->|N]; [lra|]. left. apply ln_increasing; lra. Qed.
  Lemma wt_range s : In s (sources ts) -> 0 <= wt s <= 1 / 2 /\ (wt s = 0 \/ 1 / (2 * INR NC) <= wt s) /\ ((2 <= length (claims_of ts s))%nat -> 0 < wt s).
  Proof.
    intros Hs. pose proof (cnt_range s Hs) as Cr. assert (N1 : 1 <= n_claims ts s) by (apply (le_INR 1); lia). assert (N2 : n_claims ts s <= INR NC) by (apply le_INR; lia). unfold wt.
    assert (Ip : 0 < / n_claims ts s) by (apply Rinv_0_lt_compat; lra).
    assert (L0 : 0 <= ln (n_claims ts s)) by (rewrite <- ln_1; destruct (Req_dec (n_claims ts s) 1) as [->|N]; [lra|left; apply ln_increasing; lra]).
    split; [split|split].
    - apply Rmult_le_pos; lra.
    - apply (Rmult_le_reg_r (n_claims ts s)); [lra|]. unfold Rdiv at 1. rewrite Rmult_assoc, Rinv_l, Rmult_1_r by lra. pose proof (ln_le_half _ N1). lra.
    - destruct (Nat.eq_dec (length (claims_of ts s)) 1) as [E|E]; [left; unfold n_claims; rewrite E; cbn; rewrite ln_1; field|right].
      pose proof (ln_count (length (claims_of ts s)) ltac:(lia)) as Lc. fold (n_claims ts s) in Lc. unfold Rdiv. rewrite Rmult_1_l, Rinv_mult. replace (/ 2) with (1 / 2) by field. apply Rmult_le_compat; [lra|left; apply Rinv_0_lt_compat; lra|lra|apply Rinv_le; lra].
    - intros E. pose proof (ln_count _ E) as Lc. fold (n_claims ts s) in Lc. apply Rdiv_lt_0_compat; lra.
  Qed.
  Lemma wt_rel s : In s (sources ts) -> exists q, isf (wt64 s) q /\ rel 3 q (wt s) /\ 0 <= q <= 4 /\ (q = 0 \/ bpow radix2 (-100) <= q).
  Proof.
    intros Hs. pose proof (cnt_range s Hs) as Cr. assert (N1 : 1 <= n_claims ts s) by (apply (le_INR 1); lia). assert (N2 : n_claims ts s <= INR NC) by (apply le_INR; lia). destruct (wt_range s Hs) as (W1 & W2 & _). pose proof NC_up as NU.
    assert (Ec : cnt s = ofZ64 (Z.of_nat (length (claims_of ts s)))). { apply (isf_pos_inj _ _ (n_claims ts s)); [apply cnt_isf| |lra]. unfold n_claims. rewrite INR_IZR_INZ. apply ofZ64_isf. lia. }
    pose proof (Hlog (length (claims_of ts s)) Cr) as HL. rewrite <- Ec in HL. fold (n_claims ts s) in HL.
    assert (L0 : 0 <= ln (n_claims ts s)) by (rewrite <- ln_1; destruct (Req_dec (n_claims ts s) 1) as [->|N]; [lra|left; apply ln_increasing; lra]).
    pose proof (accurate_rel _ _ L0 HL) as RL. pose proof (isf_self _ (proj1 HL)) as IL. set (lg := B2R64 (lm_ln L (cnt s))) in *.
    assert (RQ : rel 2 (lg / n_claims ts s) (wt s)). { unfold wt. apply (rel_div 2 0); [lra|exact RL|apply rel_refl; lra]. }
    pose proof (ulp1_pow_le 2 ltac:(lia)) as U2. pose proof (ulp1_pow_le 3 ltac:(lia)) as U3. pose proof (bpow_gt_0 radix2 (-100)) as PB.
    destruct W2 as [Z|W2].
    - assert (Z1 : lg / n_claims ts s = 0) by exact (rel_zero _ _ _ RQ Z). exists 0. split; [|split; [rewrite Z; unfold rel; lra|split; [lra|now left]]].
      rewrite <- (rnd_id 0 fmt_0), <- Z1. apply (div64 _ _ _ _ 1); [exact IL|apply cnt_isf|lra|lra|exact fmt_1|lra|change 1 with (bpow radix2 0); apply bpow_lt; lia].
    - assert (Q1 : lg / n_claims ts s <= 2) by (destruct RQ as (_ & _ & R1 & _); nra).
      assert (LW : bpow radix2 (-53) <= wt s). { eapply Rle_trans; [|exact W2]. change (bpow radix2 (-53)) with (bpow radix2 (Z.opp 53)). rewrite bpow_opp. unfold Rdiv. rewrite Rmult_1_l. pose proof NC1. apply Rinv_le; [lra|]. apply Rle_trans with (2 * bpow radix2 51); [lra|]. change 2 with (bpow radix2 1). rewrite <- bpow_plus. apply bpow_le. lia. }
      assert (LQ : bpow radix2 (-55) <= lg / n_claims ts s). { destruct RQ as (R0' & _ & _ & R2). assert (E4 : bpow radix2 (-53) = 4 * bpow radix2 (-55)) by (change (-53)%Z with (2 + -55)%Z; rewrite bpow_plus; reflexivity). assert (wt s <= lg / n_claims ts s * 4) by (eapply Rle_trans; [exact R2|]; apply Rmult_le_compat_l; lra). lra. }
      pose proof (bpow_gt_0 radix2 (-55)) as P55.
      assert (R3 : rel 1 (rnd (lg / n_claims ts s)) (lg / n_claims ts s)) by (apply rnd_rel; eapply Rle_trans; [|exact LQ]; apply bpow_le; lia).
      assert (F4 : generic_format radix2 fexp64 2) by (change 2 with (bpow radix2 1); apply fmt_bpow; lia).
      exists (rnd (lg / n_claims ts s)). split; [|split; [|split]].
      + apply (div64 _ _ _ _ 2); [exact IL|apply cnt_isf|lra|lra|exact F4|exact Q1|change 2 with (bpow radix2 1); apply bpow_lt; lia].
      + exact (rel_trans 1 2 _ _ _ R3 RQ).
      + split; [apply rnd_ge_fmt; [exact fmt_0|lra]|]. apply Rle_trans with 2; [apply rnd_le_fmt; [exact F4|exact Q1]|lra].
      + right. apply Rle_trans with (bpow radix2 (-55)); [apply bpow_le; lia|]. apply rnd_ge_fmt; [apply fmt_bpow; lia|exact LQ].
  Qed.
  Definition multi (c : claim) : Prop := exists s, says ts s c = true /\ (2 <= length (claims_of ts s))%nat.
  Hypothesis Two : exists s, (2 <= length (claims_of ts s))%nat.
  Lemma avlog_step_rel K rho (t0 : vec F) g x : approx K rho g (snd x) -> (forall c, multi c -> 0 < snd x c) -> (2 * Z.of_nat (K + NC + 4 + NS) <= 2 ^ 52)%Z -> bpow radix2 (-900) <= rho / (INR NC * INR NC * INR NS) ->
    exists t g', round (F:=F) AverageLog d (t0, map g (claims ts)) = UNext (map t (sources ts)) t0 (map t (sources ts), map g' (claims ts)) /\
      (forall s, In s (sources ts) -> exists r, isf (t s) r /\ rel (2 * (K + D')) r (fst (avlog_step ts x) s)) /\
      (forall c, In c (claims ts) -> exists r, isf (g' c) r /\ rel (2 * (K + D')) r (snd (avlog_step ts x) c)) /\
      approx (K + D') (rho / (INR NC * INR NC * INR NS)) g' (snd (avlog_step ts x)) /\ (forall c, multi c -> 0 < snd (avlog_step ts x) c).
  Proof.
    intros ((lam & Pl & Hg) & Hx & Px) Hmul HK Hrho. pose proof NC1 as N1. pose proof NS1 as N2. pose proof (bpow_gt_0 radix2 (-900)) as PB.
    assert (Er : rho / (INR NC * INR NC * INR NS) = rho / (INR NC * INR NC) / INR NS) by (field; lra). rewrite Er in Hrho |- *.
    assert (Prho : 0 <= rho). { assert (E2 : rho = rho / (INR NC * INR NC) / INR NS * (INR NC * INR NC * INR NS)) by (field; lra). rewrite E2. apply Rmult_le_pos; [lra|]. repeat apply Rmult_le_pos; lra. }
    set (t := fun s => ln (n_claims ts s) * (total_belief ts (snd x) s / n_claims ts s)).
    assert (Et : forall s, In s (sources ts) -> t s = wt s * total_belief ts (snd x) s). { intros s Hs. unfold t, wt. pose proof (n_claims_pos ts s Hs). field. lra. }
    assert (Src : forall s, (2 <= length (claims_of ts s))%nat -> In s (sources ts)). { intros s Q. destruct (claims_of ts s) as [|c l] eqn:Ec; [cbn in Q; lia|]. assert (In c (claims_of ts s)) by (rewrite Ec; now left). apply claims_of_In in H. eapply says_source; eauto. }
    assert (Sub : forall c s, In c (claims_of ts s) -> In c (claims ts)) by (intros c s Q; unfold claims_of in Q; apply filter_In in Q; tauto).
    assert (Tpos : forall s, (2 <= length (claims_of ts s))%nat -> 0 < t s).
    { intros s Q. pose proof (Src s Q) as Hs. rewrite Et by exact Hs. apply Rmult_lt_0_compat; [now apply (proj2 (proj2 (wt_range s Hs)))|]. destruct (claims_of_ne ts s Hs) as (c & Hc). apply (rsum_pos (snd x) _ c); [intros y Hy; apply Hx; eauto|exact Hc|]. apply Hmul. exists s. split; [now apply claims_of_In|exact Q]. }
    assert (Rw : raw (K + NC + 4) lam (rho / (INR NC * INR NC)) (fun s => Bmult mode_NE (wt64 s) (tb64 ts g s)) t).
    { split; [|split].
      - intros s Hs. destruct (tb_rel K lam (snd x) g s Hs Hg) as (r & A1 & A2 & A3 & A4). destruct (wt_rel s Hs) as (q & B1 & B2 & B3 & B4).
        assert (RP : rel (3 + (K + NC)) (q * r) (lam * t s)). { rewrite Et by exact Hs. replace (lam * (wt s * total_belief ts (snd x) s)) with (wt s * (lam * total_belief ts (snd x) s)) by ring. now apply rel_mul. }
        assert (Up : q * r <= bpow radix2 108). { replace (bpow radix2 108) with (4 * bpow radix2 106) by (change 4 with (bpow radix2 2); rewrite <- bpow_plus; reflexivity). apply Rmult_le_compat; lra. }
        assert (R1 : rel 1 (rnd (q * r)) (q * r)).
        { destruct B4 as [->|B4]; [rewrite Rmult_0_l, (rnd_id 0 fmt_0); unfold rel; lra|]. destruct A4 as [->|A4]; [rewrite Rmult_0_r, (rnd_id 0 fmt_0); unfold rel; lra|]. apply rnd_rel. apply Rle_trans with (bpow radix2 (-100) * bpow radix2 (-902)); [rewrite <- bpow_plus; apply bpow_le; lia|]. apply Rmult_le_compat; try apply bpow_ge_0; assumption. }
        assert (F8 : generic_format radix2 fexp64 (bpow radix2 108)) by (apply fmt_bpow; lia).
        exists (rnd (q * r)). split; [apply (mul64 _ _ _ _ (bpow radix2 108)); [exact B1|exact A1|apply RP|exact F8|exact Up|apply bpow_lt; lia]|]. split; [|split].
        + replace (K + NC + 4)%nat with (1 + (3 + (K + NC)))%nat by lia. eapply rel_trans; eassumption.
        + apply rnd_ge_fmt; [exact fmt_0|apply RP].
        + apply Rle_trans with (bpow radix2 108); [now apply rnd_le_fmt|apply bpow_le; lia].
      - pose proof (belief_total_low (snd x) rho wt t (1 / (2 * INR NC)) (1 / 2) Hx Px Prho) as Q. replace (rho * (1 / (2 * INR NC) / (1 / 2)) / INR NC) with (rho / (INR NC * INR NC)) in Q by (field; lra).
        apply Q; [apply Rdiv_lt_0_compat; lra| | |exact Et].
        + apply (Rmult_le_reg_r (2 * INR NC)); [lra|]. replace (1 / (2 * INR NC) * (2 * INR NC)) with 1 by (field; lra). lra.
        + intros s Hs. destruct (wt_range s Hs) as (A1 & A2 & _). tauto.
      - destruct Two as (s & Q). exists s. split; [now apply Src|now apply Tpos]. }
    destruct (finish_step (K + NC + 4) lam (rho / (INR NC * INR NC)) _ _ Pl Rw HK Hrho) as (m & m' & Em & Em' & H1 & H2 & H3).
    set (tau := fun s => Bmult mode_NE (wt64 s) (tb64 ts g s)) in *.
    exists (fun s => Bdiv mode_NE (tau s) m), (fun c => Bdiv mode_NE (tt64 ts tau c) m'). split; [|split; [|split; [|split]]].
    - assert (Ew : avlog_weights (F:=F) d = map wt64 (sources ts)).
      { unfold avlog_weights, claim_counts. rewrite (rep_nc _ _ _ R0), (ones64 L). pose proof (sc64 L b f ts d Hb (fun _ => ofZ64 1)) as Q. change (num F) with b64 in *. rewrite Q. rewrite map_map. exact (zipw_map2 (@n_div F) (fun s => lm_ln L (cnt s)) cnt (sources ts)). }
      assert (En : vmul (F:=F) (avlog_weights d) (mv (F:=F) (sc d) (map g (claims ts))) = map tau (sources ts)).
      { rewrite Ew. exact (eq_trans (f_equal (fun v : list b64 => vmul (F:=F) (map wt64 (sources ts)) v) (sc64 L b f ts d Hb g)) (zipw_map2 (@n_mul F) wt64 (tb64 ts g) (sources ts))). }
      cbn [round]. unfold avlog_upd. rewrite En. pose proof (scT64 L b f ts d Hb tau) as Et2. change (num F) with b64 in *. rewrite Et2. rewrite Em, Em'. unfold vdivs. rewrite !map_map. reflexivity.
    - intros s Hs. destruct (H1 s Hs) as (r & A1 & A2). exists r. split; [exact A1|]. eapply rel_mono; [|exact A2]. lia.
    - intros c Hc. destruct (H2 c Hc) as (r & A1 & A2). exists r. split; [exact A1|]. eapply rel_mono; [|exact A2]. lia.
    - replace (K + D')%nat with (K + NC + 4 + NS + 1)%nat by lia. exact H3.
    - intros c (s & Sy & Q). assert (Hc : In c (claims ts)) by (apply claims_In; eauto).
      assert (Pc : 0 < total_trust ts t c). { apply (rsum_pos t _ s); [|now apply supporters_In|now apply Tpos]. intros y Hy. destruct Rw as (_ & Rw & _). apply Rw. unfold supporters in Hy. apply filter_In in Hy. tauto. }
      cbn [avlog_step snd]. fold t. unfold by_max. apply Rdiv_lt_0_compat; [exact Pc|]. eapply rmax_pos; eauto.
  Qed.
  Lemma approx_mono K rho rho' g x : rho' <= rho -> approx K rho g x -> approx K rho' g x.
  Proof.
    intros H (A & B & C). split; [exact A|]. split; [|exact C]. intros c Hc. destruct (B c Hc) as (B1 & B2). split; [exact B1|]. destruct B2 as [B2|B2]; [now left|right].
    eapply Rle_trans; [|exact B2]. apply Rmult_le_compat_r; [|exact H]. destruct C as (c' & Hc' & P). left. exact (rmax_pos x _ _ Hc' P).
  Qed.
  Lemma avlog_scores_rel p X0 x0 : init (F:=F) AverageLog p d = Some X0 -> prior_spec ts p = Some x0 -> forall k, (2 * Z.of_nat ((k + 1) * D') <= 2 ^ 52)%Z -> (INR NS * INR NC * INR NC) ^ (k + 1) <= bpow radix2 900 ->
    exists t g, scores (F:=F) AverageLog d X0 k = (t, map g (claims ts)) /\ approx (NC + 1 + k * D') (1 / (INR NS * INR NC * INR NC) ^ (k + 1)) g (snd (rounds (avlog_step ts) ((fun _ => 0), x0) k)) /\
      (forall c, multi c -> 0 < snd (rounds (avlog_step ts) ((fun _ => 0), x0) k) c) /\
      (k <> 0%nat -> exists t', t = map t' (sources ts) /\
        (forall s, In s (sources ts) -> exists r, isf (t' s) r /\ rel (2 * ((k + 1) * D')) r (fst (rounds (avlog_step ts) ((fun _ => 0), x0) k) s)) /\
        (forall c, In c (claims ts) -> exists r, isf (g c) r /\ rel (2 * ((k + 1) * D')) r (snd (rounds (avlog_step ts) ((fun _ => 0), x0) k) c))).
  Proof.
    intros E0 Ex. pose proof NC1 as N1. pose proof NS1 as N2. assert (PN0 : 1 <= INR NS * INR NC) by nra. assert (PN : 1 <= INR NS * INR NC * INR NC) by nra.
    cbn [init] in E0. destruct (prior_beliefs p d) as [bel|] eqn:Ep; [|discriminate]. cbn in E0. injection E0 as E0'.
    destruct (prior_rel p bel x0 Ep Ex) as (g0 & Eg & H0). subst bel. induction k as [|k IH]; intros HK HB.
    - exists (vzeros (F:=F) (num_sources d)), g0. cbn [scores rounds snd]. split; [symmetry; exact E0'|]. split; [|split; [|congruence]].
      + rewrite Nat.add_0_l, pow_1, Nat.mul_0_l, Nat.add_0_r. eapply approx_mono; [|exact H0]. unfold Rdiv. rewrite !Rmult_1_l. apply Rinv_le; nra.
      + intros c (s & Hs & _). apply (prior_pos ts p x0 Ex). apply claims_In. eauto.
    - destruct IH as (t & g & E & Hg & Hm & _); [lia| |].
      { eapply Rle_trans; [|exact HB]. apply Rle_pow; [exact PN|lia]. }
      set (x := rounds (avlog_step ts) ((fun _ => 0), x0) k) in *.
      assert (Erho : 1 / (INR NS * INR NC * INR NC) ^ (k + 1) / (INR NC * INR NC * INR NS) = 1 / (INR NS * INR NC * INR NC) ^ (Datatypes.S k + 1)).
      { replace (Datatypes.S k + 1)%nat with (Datatypes.S (k + 1)) by lia. cbn [pow]. assert (Q : (INR NS * INR NC * INR NC) ^ (k + 1) <> 0) by (apply pow_nonzero; lra). field. repeat split; try exact Q; lra. }
      destruct (avlog_step_rel (NC + 1 + k * D') (1 / (INR NS * INR NC * INR NC) ^ (k + 1)) t g x Hg Hm) as (t' & g' & Er & H1 & H2 & H3 & H4).
      { nia. }
      { rewrite Erho. change (-900)%Z with (Z.opp 900). rewrite bpow_opp. unfold Rdiv. rewrite Rmult_1_l. apply Rinv_le; [|exact HB]. apply pow_lt. lra. }
      assert (Er2 : round AverageLog d (scores AverageLog d X0 k) = UNext (map t' (sources ts)) t (map t' (sources ts), map g' (claims ts))) by (rewrite E; exact Er).
      cbn [scores rounds]. fold x. rewrite Er2. exists (map t' (sources ts)), g'. split; [reflexivity|]. split; [|split; [exact H4|]].
      + rewrite Erho in H3. replace (NC + 1 + Datatypes.S k * D')%nat with (NC + 1 + k * D' + D')%nat by lia. exact H3.
      + intros _. exists t'. split; [reflexivity|]. split.
        * intros s Hs. destruct (H1 s Hs) as (r & A1 & A2). exists r. split; [exact A1|]. eapply rel_mono; [|exact A2]. nia.
        * intros c Hc. destruct (H2 c Hc) as (r & A1 & A2). exists r. split; [exact A1|]. eapply rel_mono; [|exact A2]. nia.
  Qed.
End Accuracy.

(** ** Specification: the result [r] shows a trust for every source and a belief for every claim of the input (and for nothing else), each a
    double whose relative distance from the real number [x] gives for it is at most [e] *)
Definition agrees {S V W} {ES : Eqb S} {EV : Eqb V} {EW : Eqb W} (e : R) (ts : list (S * V * W)) (r : result S V W b64) (x : rscores (S:=S) (V:=V) (W:=W)) : Prop :=
  exists t g, reports ts r t g /\ (forall s, In s (sources ts) -> accurate e (fst x s) (t s)) /\ (forall c, In c (claims ts) -> accurate e (snd x c) (g c)).

Section C73.
  Context {S V W : Type} {ES : Eqb S} {EV : Eqb V} {EW : Eqb W}.
  Variable L : libm.
  Notation F := (B64 L).
  Notation claim := (V * W)%type.
  Variables (b : bool) (f : option (V -> W -> W -> option F)) (ts : list (S * V * W)) (d : dataset S V W F).
  Hypothesis Hb : build (F:=F) b f ts = Ok d.
  Notation NS := (length (sources ts)).
  Notation NC := (length (claims ts)).

  Lemma err_eq n : INR (2 * n) * bpow radix2 (-51) = INR n / 2 ^ 50.
  Proof.
    rewrite mult_INR. change (-51)%Z with (Z.opp 51). rewrite bpow_opp. change (bpow radix2 51) with (IZR (2 ^ 51)). replace (IZR (2 ^ 51)) with (2 * 2 ^ 50) by (rewrite (pow_IZR 2 50); rewrite <- mult_IZR; f_equal).
    change (INR 2) with 2. field.
  Qed.
  Lemma pow_bound m k : (Z.of_nat m ^ Z.of_nat k <= 2 ^ 900)%Z -> INR m ^ k <= bpow radix2 900.
  Proof. intros H. rewrite INR_IZR_INZ, pow_IZR. apply IZR_le in H. exact H. Qed.

  (** the doubles Sums reports after k rounds are the numbers of the published recurrence, up to a relative error of (k+1)(NS+NC+1) 2^-50 *)
  Theorem C73_sums clock fuel p it lg r o' k : run (F:=F) clock fuel (AObj Sums p it lg) d = (Ok r, o') -> r_iterations r = Some k -> k <> 0%nat ->
    (Z.of_nat ((k + 1) * (NS + NC + 1)) <= 2 ^ 50)%Z -> (Z.of_nat (NS * NC) ^ Z.of_nat (k + 1) <= 2 ^ 900)%Z ->
    exists x0, prior_spec ts p = Some x0 /\ agrees (INR ((k + 1) * (NS + NC + 1)) / 2 ^ 50) ts r (rounds (sums_step ts) ((fun _ => 0), x0) k).
  Proof.
    intros H Hk Hk0 B1 B2. apply (run_cases b f ts d Hb) in H. destruct H as (NE & X0 & k' & it' & E0 & El & x & Ef & ->).
    cbn in Hk. injection Hk as ->. assert (Ep : exists x0, prior_spec ts p = Some x0). { destruct p; cbn [prior_spec]; eauto. cbn in E0. discriminate. }
    destruct Ep as (x0 & Ep). exists x0. split; [exact Ep|]. apply pow_bound in B2. rewrite mult_INR in B2.
    destruct (sums_scores_rel L b f ts d Hb NE ltac:(nia) ltac:(nia) ltac:(nia) p X0 x0 E0 Ep k ltac:(nia) B2) as (t & g & E & _ & Hn). destruct (Hn Hk0) as (t' & -> & H1 & H2).
    apply (final_ok Sums it' _ x) in Ef; [|discriminate]. rewrite E in Ef. subst x. cbn [fst snd]. rewrite <- err_eq.
    exists t', g. split; [apply (reports64 L ts); reflexivity|]. split.
    - intros s Hs. destruct (H1 s Hs) as (q & A1 & A2). eapply rel_accurate; [|exact A1|exact A2]. nia.
    - intros c Hc. destruct (H2 c Hc) as (q & A1 & A2). eapply rel_accurate; [|exact A1|exact A2]. nia.
  Qed.
  (** the same for AverageLog, if the C library's logarithm of an integer up to the number of claims is right to a relative error of 2^-52 *)
  Theorem C73_average_log clock fuel p it lg r o' k : run (F:=F) clock fuel (AObj AverageLog p it lg) d = (Ok r, o') -> r_iterations r = Some k -> k <> 0%nat ->
    (exists s, (2 <= length (claims_of ts s))%nat) ->
    (forall n, (1 <= n <= NC)%nat -> accurate (/ 2 ^ 52) (ln (INR n)) (lm_ln L (ofZ64 (Z.of_nat n)))) ->
    (Z.of_nat ((k + 1) * (NS + NC + 5)) <= 2 ^ 50)%Z -> (Z.of_nat (NS * NC * NC) ^ Z.of_nat (k + 1) <= 2 ^ 900)%Z ->
    exists x0, prior_spec ts p = Some x0 /\ agrees (INR ((k + 1) * (NS + NC + 5)) / 2 ^ 50) ts r (rounds (avlog_step ts) ((fun _ => 0), x0) k).
  Proof.
    intros H Hk Hk0 Two Hlog B1 B2. apply (run_cases b f ts d Hb) in H. destruct H as (NE & X0 & k' & it' & E0 & El & x & Ef & ->).
    cbn in Hk. injection Hk as ->. assert (Ep : exists x0, prior_spec ts p = Some x0). { destruct p; cbn [prior_spec]; eauto. cbn in E0. discriminate. }
    destruct Ep as (x0 & Ep). exists x0. split; [exact Ep|]. apply pow_bound in B2. rewrite !mult_INR in B2.
    assert (Hl : log_accurate L ts). { intros n Hn. specialize (Hlog n Hn). replace (bpow radix2 (-52)) with (/ 2 ^ 52); [exact Hlog|]. change (-52)%Z with (Z.opp 52). rewrite bpow_opp. f_equal. change (bpow radix2 52) with (IZR (2 ^ 52)). rewrite (pow_IZR 2 52). f_equal. }
    destruct (avlog_scores_rel L b f ts d Hb NE ltac:(nia) ltac:(nia) ltac:(nia) Hl Two p X0 x0 E0 Ep k ltac:(nia) B2) as (t & g & E & _ & _ & Hn). destruct (Hn Hk0) as (t' & -> & H1 & H2).
    apply (final_ok AverageLog it' _ x) in Ef; [|discriminate]. rewrite E in Ef. subst x. cbn [fst snd]. rewrite <- err_eq.
    exists t', g. split; [apply (reports64 L ts); reflexivity|]. split.
    - intros s Hs. destruct (H1 s Hs) as (q & A1 & A2). eapply rel_accurate; [|exact A1|exact A2]. nia.
    - intros c Hc. destruct (H2 c Hc) as (q & A1 & A2). eapply rel_accurate; [|exact A1|exact A2]. nia.
  Qed.

  (** scores further apart than the error are in the right order, and a value ahead of its rivals by more than the error is the one reported as most believed *)
  Lemma accurate_lt e x y v w : accurate e x v -> accurate e y w -> x * (1 + e) < y * (1 - e) -> Bltb v w = true.
  Proof.
    intros [Fv Hv] [Fw Hw] Hlt. rewrite (ltb64 v w (B2R64 v) (B2R64 w)) by (split; auto). apply Rabs_le_inv in Hv, Hw. destruct (rltb_spec (B2R64 v) (B2R64 w)) as [|N]; [reflexivity|nra].
  Qed.
  Lemma agrees_winner e r x : agrees e ts r x -> forall c, In c (claims ts) -> (forall c', In c' (rivals ts c) -> c' <> c -> snd x c' * (1 + e) < snd x c * (1 - e)) ->
    get_most_believed_values (F:=F) r (fst c) = Ok [snd c].
  Proof.
    intros (t & g & (_ & Rb & _ & _ & Nm) & _ & Hg) c Hc Hw. pose proof (Rb c) as Ec. pose proof Hc as Mc. apply mem_In in Mc. rewrite Mc in Ec. unfold belief_of in Ec. destruct c as [v w]. cbn [fst snd] in *.
    destruct (dget (r_belief r) v) as [m|] eqn:Ev; [|discriminate]. specialize (Nm v m Ev).
    assert (In_m : forall w' q, dget m w' = Some q -> In (v, w') (claims ts) /\ q = g (v, w')).
    { intros w' q Hq. pose proof (Rb (v, w')) as E'. unfold belief_of in E'. cbn [fst snd] in E'. rewrite Ev, Hq in E'. destruct (mem (v, w') (claims ts)) eqn:M; [|discriminate]. apply mem_In in M. injection E' as ->. auto. }
    assert (Riv : forall w' q, dget m w' = Some q -> w' <> w -> Bltb q (g (v, w)) = true).
    { intros w' q Hq Nw. destruct (In_m w' q Hq) as (Hi & ->). apply (accurate_lt e (snd x (v, w')) (snd x (v, w))); [now apply Hg|now apply Hg|]. apply Hw; [|congruence]. unfold rivals. apply filter_In. split; [exact Hi|]. cbn [fst]. apply beq_refl. }
    destruct (C17_most_believed_iff (F:=F) (good := fun y : b64 => is_nan y = false) r v m Ev) as (l & El & Nl & ND & Hl).
    - intros ->. discriminate.
    - exact Nm.
    - intros w' q Hq. destruct (In_m w' q) as (Hi & ->); [apply In_dget; [exact Nm|exact Hq]|]. destruct (Hg _ Hi) as (Fq & _). destruct (g (v, w')); try discriminate; reflexivity.
    - rewrite El. f_equal. assert (Only : forall w', In w' l -> w' = w).
      { intros w' Hw'. apply Hl in Hw'. destruct Hw' as (q & Hq & Mx). destruct (eq_dec_of w' w) as [|N]; [assumption|]. pose proof (Riv w' q Hq N) as Q. pose proof (Mx w (g (v, w)) Ec) as Q'. change (@n_ltb F) with (@Bltb 53 1024) in Q'. congruence. }
      destruct l as [|a l]; [congruence|]. rewrite (Only a (or_introl eq_refl)) in *. f_equal. destruct l as [|a' l]; [reflexivity|]. inversion ND as [|? ? Hn _]; subst. exfalso. apply Hn. left. apply Only. right. now left.
  Qed.
  Theorem C73_sums_winner clock fuel p it lg r o' k x0 c : run (F:=F) clock fuel (AObj Sums p it lg) d = (Ok r, o') -> r_iterations r = Some k -> k <> 0%nat ->
    (Z.of_nat ((k + 1) * (NS + NC + 1)) <= 2 ^ 50)%Z -> (Z.of_nat (NS * NC) ^ Z.of_nat (k + 1) <= 2 ^ 900)%Z -> prior_spec ts p = Some x0 ->
    let e := INR ((k + 1) * (NS + NC + 1)) / 2 ^ 50 in let bel := snd (rounds (sums_step ts) ((fun _ => 0), x0) k) in
    In c (claims ts) -> (forall c', In c' (rivals ts c) -> c' <> c -> bel c' * (1 + e) < bel c * (1 - e)) -> get_most_believed_values (F:=F) r (fst c) = Ok [snd c].
  Proof.
    intros H Hk Hk0 B1 B2 Ep e bel Hc Hw. destruct (C73_sums clock fuel p it lg r o' k H Hk Hk0 B1 B2) as (x0' & Ep' & A). rewrite Ep in Ep'. injection Ep' as <-. exact (agrees_winner _ _ _ A c Hc Hw).
  Qed.
End C73.

Section C73exact.
  Context {S V W : Type} {ES : Eqb S} {EV : Eqb V} {EW : Eqb W}.
  (** in particular, the run in doubles agrees with the run of the same code in exact arithmetic, whenever both make the same number of rounds *)
  Theorem C73_sums_exact (L : libm) b f b' f' (ts : list (S * V * W)) (d : dataset S V W (B64 L)) (dx : dataset S V W XR) : build (F:=B64 L) b f ts = Ok d -> build (F:=XR) b' (real_imp f') ts = Ok dx ->
    forall clock clock' fuel fuel' p it it' lg lg' r rx o o' k, run (F:=B64 L) clock fuel (AObj Sums p it lg) d = (Ok r, o) -> run (F:=XR) clock' fuel' (AObj Sums p it' lg') dx = (Ok rx, o') ->
    r_iterations r = Some k -> r_iterations rx = Some k -> k <> 0%nat ->
    (Z.of_nat ((k + 1) * (length (sources ts) + length (claims ts) + 1)) <= 2 ^ 50)%Z -> (Z.of_nat (length (sources ts) * length (claims ts)) ^ Z.of_nat (k + 1) <= 2 ^ 900)%Z ->
    let e := INR ((k + 1) * (length (sources ts) + length (claims ts) + 1)) / 2 ^ 50 in
    (forall s, In s (sources ts) -> exists q v, trust_of rx s = Some (Fin q) /\ trust_of r s = Some v /\ accurate e q v) /\
    (forall c, In c (claims ts) -> exists q v, belief_of rx c = Some (Fin q) /\ belief_of r c = Some v /\ accurate e q v).
  Proof.
    intros Hb Hbx clock clock' fuel fuel' p it it' lg lg' r rx o o' k H Hx Hk Hkx Hk0 B1 B2 e.
    destruct (C73_sums L b f ts d Hb clock fuel p it lg r o k H Hk Hk0 B1 B2) as (x0 & Ep & t & g & (Rt & Rb & _) & Ht & Hg).
    destruct (C33_sums_recurrence b' f' ts dx Hbx clock' fuel' p it' lg' rx o' Hx) as (y0 & k' & Es & Ek & Xt & Xb & _). rewrite Hkx in Ek. injection Ek as <-. cbn [start] in Es. rewrite Ep in Es. cbn in Es. injection Es as <-.
    split.
    - intros s Hs. pose proof Hs as M. apply mem_In in M. exists (fst (rounds (sums_step ts) ((fun _ => 0), x0) k) s), (t s). rewrite Rt, Xt, M. repeat split; try reflexivity; now apply Ht.
    - intros c Hc. pose proof Hc as M. apply mem_In in M. exists (snd (rounds (sums_step ts) ((fun _ => 0), x0) k) c), (g c). rewrite Rb, Xb, M. repeat split; try reflexivity; now apply Hg.
  Qed.
End C73exact.

Section C73avlog.
  Context {S V W : Type} {ES : Eqb S} {EV : Eqb V} {EW : Eqb W}.
  Variables (L : libm) (ts : list (S * V * W)).
  Notation NS := (length (sources ts)).
  Notation NC := (length (claims ts)).
  Hypothesis Two : someone_claims_two ts.
  Hypothesis Hlog : forall n, (1 <= n <= NC)%nat -> accurate (/ 2 ^ 52) (ln (INR n)) (lm_ln L (ofZ64 (Z.of_nat n))).
  Theorem C73_average_log_winner b f (d : dataset S V W (B64 L)) clock fuel p it lg r o' k x0 c : build (F:=B64 L) b f ts = Ok d ->
    run (F:=B64 L) clock fuel (AObj AverageLog p it lg) d = (Ok r, o') -> r_iterations r = Some k -> k <> 0%nat ->
    (Z.of_nat ((k + 1) * (NS + NC + 5)) <= 2 ^ 50)%Z -> (Z.of_nat (NS * NC * NC) ^ Z.of_nat (k + 1) <= 2 ^ 900)%Z -> prior_spec ts p = Some x0 ->
    let e := INR ((k + 1) * (NS + NC + 5)) / 2 ^ 50 in let bel := snd (rounds (avlog_step ts) ((fun _ => 0), x0) k) in
    In c (claims ts) -> (forall c', In c' (rivals ts c) -> c' <> c -> bel c' * (1 + e) < bel c * (1 - e)) -> get_most_believed_values (F:=B64 L) r (fst c) = Ok [snd c].
  Proof.
    intros Hb H Hk Hk0 B1 B2 Ep e bel Hc Hw. assert (Two' : exists s, (2 <= length (claims_of ts s))%nat) by (destruct Two as (s & _ & Q); eauto).
    destruct (C73_average_log L b f ts d Hb clock fuel p it lg r o' k H Hk Hk0 Two' Hlog B1 B2) as (x0' & Ep' & A). rewrite Ep in Ep'. injection Ep' as <-. exact (agrees_winner L ts _ _ _ A c Hc Hw).
  Qed.
  Theorem C73_average_log_exact b f b' f' (d : dataset S V W (B64 L)) (dx : dataset S V W XR) : build (F:=B64 L) b f ts = Ok d -> build (F:=XR) b' (real_imp f') ts = Ok dx ->
    forall clock clock' fuel fuel' p it it' lg lg' r rx o o' k, run (F:=B64 L) clock fuel (AObj AverageLog p it lg) d = (Ok r, o) -> run (F:=XR) clock' fuel' (AObj AverageLog p it' lg') dx = (Ok rx, o') ->
    r_iterations r = Some k -> r_iterations rx = Some k -> k <> 0%nat ->
    (Z.of_nat ((k + 1) * (NS + NC + 5)) <= 2 ^ 50)%Z -> (Z.of_nat (NS * NC * NC) ^ Z.of_nat (k + 1) <= 2 ^ 900)%Z ->
    let e := INR ((k + 1) * (NS + NC + 5)) / 2 ^ 50 in
    (forall s, In s (sources ts) -> exists q v, trust_of rx s = Some (Fin q) /\ trust_of r s = Some v /\ accurate e q v) /\
    (forall c, In c (claims ts) -> exists q v, belief_of rx c = Some (Fin q) /\ belief_of r c = Some v /\ accurate e q v).
  Proof.
    intros Hb Hbx clock clock' fuel fuel' p it it' lg lg' r rx o o' k H Hx Hk Hkx Hk0 B1 B2 e. assert (Two' : exists s, (2 <= length (claims_of ts s))%nat) by (destruct Two as (s & _ & Q); eauto).
    destruct (C73_average_log L b f ts d Hb clock fuel p it lg r o k H Hk Hk0 Two' Hlog B1 B2) as (x0 & Ep & t & g & (Rt & Rb & _) & Ht & Hg).
    destruct (C35_avlog_recurrence b' f' ts dx Hbx clock' fuel' p it' lg' rx o' Two Hx) as (y0 & k' & Es & Ek & (Xt & Xb & _) & _). rewrite Hkx in Ek. injection Ek as <-. cbn [start] in Es. rewrite Ep in Es. cbn in Es. injection Es as <-.
    split.
    - intros s Hs. pose proof Hs as M. apply mem_In in M. exists (fst (rounds (avlog_step ts) ((fun _ => 0), x0) k) s), (t s). rewrite Rt, Xt, M. repeat split; try reflexivity; now apply Ht.
    - intros c Hc. pose proof Hc as M. apply mem_In in M. exists (snd (rounds (avlog_step ts) ((fun _ => 0), x0) k) c), (g c). rewrite Rb, Xb, M. repeat split; try reflexivity; now apply Hg.
  Qed.
End C73avlog.

Section C73returns.
  Context {S V W : Type} {ES : Eqb S} {EV : Eqb V} {EW : Eqb W}.
  Variable L : libm.
  Notation F := (B64 L).
  Variables (b : bool) (f : option (V -> W -> W -> option F)) (ts : list (S * V * W)) (d : dataset S V W F).
  Hypothesis Hb : build (F:=F) b f ts = Ok d.
  Notation NS := (length (sources ts)).
  Notation NC := (length (claims ts)).
  Lemma fixed_run clock fuel a p n st lg : ts <> [] -> a = Sums \/ a = AverageLog -> p <> BadPrior -> (Z.to_nat n < fuel)%nat ->
    exists r o', run (F:=F) clock fuel (AObj a p (IFixed n st) lg) d = (Ok r, o') /\ r_iterations r = Some (Z.to_nat n).
  Proof.
    intros NE Ha Hp Hf. assert (Ha' : a <> UnboundedSums) by (destruct Ha as [->| ->]; discriminate). destruct (C28_fixed_returns b f ts d Hb clock fuel a p n st lg NE Ha' Hp Hf) as (r & Hr).
    destruct (run clock fuel (AObj a p (IFixed n st) lg) d) as [q o'] eqn:E. cbn in Hr. subst q. exists r, o'. split; [reflexivity|].
    destruct (C28_fixed b f ts d Hb clock fuel a p n st lg r o' E) as (k & Ek & _ & Em & _). rewrite Ek. f_equal. destruct Ha as [->| ->]; exact Em.
  Qed.
  (** with FixedIterator(n), n >= 1, the run returns, and its scores are accurate *)
  Theorem C73_sums_returns clock fuel p n st lg : ts <> [] -> p <> BadPrior -> (1 <= n)%Z -> (Z.to_nat n < fuel)%nat ->
    ((n + 1) * Z.of_nat (NS + NC + 1) <= 2 ^ 50)%Z -> (Z.of_nat (NS * NC) ^ (n + 1) <= 2 ^ 900)%Z ->
    exists r x0, fst (run (F:=F) clock fuel (AObj Sums p (IFixed n st) lg) d) = Ok r /\ r_iterations r = Some (Z.to_nat n) /\ prior_spec ts p = Some x0 /\
      agrees (IZR ((n + 1) * Z.of_nat (NS + NC + 1)) / 2 ^ 50) ts r (rounds (sums_step ts) ((fun _ => 0), x0) (Z.to_nat n)).
  Proof.
    intros NE Hp Hn Hf B1 B2. destruct (fixed_run clock fuel Sums p n st lg NE (or_introl eq_refl) Hp Hf) as (r & o' & E & Ek).
    assert (En : Z.of_nat (Z.to_nat n + 1) = (n + 1)%Z) by lia. assert (Em : Z.of_nat ((Z.to_nat n + 1) * (NS + NC + 1)) = ((n + 1) * Z.of_nat (NS + NC + 1))%Z) by (rewrite Nat2Z.inj_mul, En; reflexivity).
    destruct (C73_sums L b f ts d Hb clock fuel p (IFixed n st) lg r o' (Z.to_nat n) E Ek ltac:(lia)) as (x0 & Ex & A); [rewrite Em; exact B1|rewrite En; exact B2|].
    exists r, x0. split; [now rewrite E|]. split; [exact Ek|]. split; [exact Ex|]. rewrite INR_IZR_INZ, Em in A. exact A.
  Qed.
  Theorem C73_average_log_returns clock fuel p n st lg : p <> BadPrior -> (1 <= n)%Z -> (Z.to_nat n < fuel)%nat -> (exists s, (2 <= length (claims_of ts s))%nat) ->
    (forall m, (1 <= m <= NC)%nat -> accurate (/ 2 ^ 52) (ln (INR m)) (lm_ln L (ofZ64 (Z.of_nat m)))) ->
    ((n + 1) * Z.of_nat (NS + NC + 5) <= 2 ^ 50)%Z -> (Z.of_nat (NS * NC * NC) ^ (n + 1) <= 2 ^ 900)%Z ->
    exists r x0, fst (run (F:=F) clock fuel (AObj AverageLog p (IFixed n st) lg) d) = Ok r /\ r_iterations r = Some (Z.to_nat n) /\ prior_spec ts p = Some x0 /\
      agrees (IZR ((n + 1) * Z.of_nat (NS + NC + 5)) / 2 ^ 50) ts r (rounds (avlog_step ts) ((fun _ => 0), x0) (Z.to_nat n)).
  Proof.
    intros Hp Hn Hf Two Hlog B1 B2. assert (NE : ts <> []). { intros E. destruct Two as (s & Q). rewrite E in Q. cbn in Q. lia. }
    destruct (fixed_run clock fuel AverageLog p n st lg NE (or_intror eq_refl) Hp Hf) as (r & o' & E & Ek).
    assert (En : Z.of_nat (Z.to_nat n + 1) = (n + 1)%Z) by lia. assert (Em : Z.of_nat ((Z.to_nat n + 1) * (NS + NC + 5)) = ((n + 1) * Z.of_nat (NS + NC + 5))%Z) by (rewrite Nat2Z.inj_mul, En; reflexivity).
    destruct (C73_average_log L b f ts d Hb clock fuel p (IFixed n st) lg r o' (Z.to_nat n) E Ek ltac:(lia) Two Hlog) as (x0 & Ex & A); [rewrite Em; exact B1|rewrite En; exact B2|].
    exists r, x0. split; [now rewrite E|]. split; [exact Ek|]. split; [exact Ex|]. rewrite INR_IZR_INZ, Em in A. exact A.
  Qed.
End C73returns.

(** ** Non-vacuity: a C library whose logarithm is correctly rounded, and a dataset with 3 sources and 6 claims *)
Module AccuracyExamples.
  Definition of_R (x : R) : b64 := binary_normalize 53 1024 _ _ mode_NE (Ztrunc (scaled_mantissa radix2 fexp64 (rnd x))) (cexp radix2 fexp64 (rnd x)) false.
  Lemma of_R_isf x : Rabs x < bpow radix2 1000 -> isf (of_R x) (rnd x).
  Proof.
    intros H. assert (G : generic_format radix2 fexp64 (rnd x)) by (apply generic_format_round; auto with typeclass_instances).
    assert (E : F2R (Float radix2 (Ztrunc (scaled_mantissa radix2 fexp64 (rnd x))) (cexp radix2 fexp64 (rnd x))) = rnd x) by (symmetry; exact G).
    pose proof (binary_normalize_correct 53 1024 _ _ mode_NE (Ztrunc (scaled_mantissa radix2 fexp64 (rnd x))) (cexp radix2 fexp64 (rnd x)) false) as C. cbv zeta in C. rewrite E in C.
    rewrite Rlt_bool_true in C; [destruct C as (C1 & C2 & _); split; [exact C2|]; unfold of_R; rewrite C1; now apply rnd_id|].
    apply Rle_lt_trans with (bpow radix2 1000); [|apply bpow_lt; lia]. rewrite rnd_id by exact G. apply Rabs_le. apply Rabs_lt_inv in H. split; [|apply rnd_le_fmt; [apply fmt_bpow; lia|lra]].
    apply rnd_ge_fmt; [apply generic_format_opp, fmt_bpow; lia|lra].
  Qed.
  Definition lm : libm := Libm (fun x => of_R (ln (B2R64 x))) (fun x => of_R (exp (B2R64 x))) (fun x y => of_R (Rpower (B2R64 x) (B2R64 y))).
  Lemma lm_log n : (1 <= n)%nat -> (Z.of_nat n <= 2 ^ 53)%Z -> accurate (/ 2 ^ 52) (ln (INR n)) (lm_ln lm (ofZ64 (Z.of_nat n))).
  Proof.
    intros H1 H2. cbn [lm lm_ln]. destruct (ofZ64_isf (Z.of_nat n) ltac:(lia)) as (_ & ->). rewrite <- INR_IZR_INZ. assert (N1 : 1 <= INR n) by (apply (le_INR 1); exact H1).
    assert (L0 : 0 <= ln (INR n)) by (rewrite <- ln_1; destruct (Req_dec (INR n) 1) as [->|N]; [lra|left; apply ln_increasing; lra]).
    assert (Up : ln (INR n) < bpow radix2 1000). { apply Rle_lt_trans with (bpow radix2 53); [|apply bpow_lt; lia]. pose proof (ln_le_half _ N1). assert (INR n <= bpow radix2 53) by (rewrite INR_IZR_INZ; apply (IZR_le _ (2 ^ 53)); exact H2). lra. }
    pose proof (of_R_isf (ln (INR n)) ltac:(rewrite Rabs_pos_eq; [exact Up|exact L0])) as I. split; [apply I|]. rewrite (proj2 I).
    destruct (Nat.eq_dec n 1) as [->|N]; [change (INR 1) with 1; rewrite ln_1, (rnd_id 0 fmt_0), Rminus_0_r, Rabs_R0; lra|].
    assert (Lo : bpow radix2 (-1022) <= ln (INR n)). { pose proof (ln_count n ltac:(lia)). apply Rle_trans with (1 / 2); [|assumption]. apply Rle_trans with (bpow radix2 (-1)); [apply bpow_le; lia|right; change (bpow radix2 (-1)) with (/ 2); lra]. }
    destruct (rnd_rel _ Lo) as (_ & _ & R1 & R2). cbn [pow] in R1, R2. rewrite Rmult_1_r in R1, R2. unfold ulp1 in R1, R2. change (bpow radix2 (-52)) with (/ IZR (2 ^ 52)) in R1, R2.
    replace (2 ^ 52) with (IZR (2 ^ 52)) by (rewrite (pow_IZR 2 52); f_equal). assert (P : 0 < / IZR (2 ^ 52) <= 1) by lra. set (h := / IZR (2 ^ 52)) in *. clearbody h. apply Rabs_le. set (y := rnd (ln (INR n))) in *. clearbody y. split; [|nra].
    assert (y <= 2 * ln (INR n)) by nra. assert (ln (INR n) - y <= h * ln (INR n)); [|lra]. destruct (Rle_dec y (ln (INR n))) as [Q|Q]; nra.
  Qed.
  Definition ts := FloatExamples.ts.
  Lemma builds : exists d : dataset nat nat nat (B64 lm), build (F:=B64 lm) false None ts = Ok d.
  Proof.
    destruct (build_strict (F:=B64 lm) None ts) as [(_ & _ & d & E & _)|[(_ & N & _)|(s & x & H & _)]].
    - exists d. exact E.
    - exfalso. apply N. intros c c' q _ _ H. unfold imp_val in H. destruct (_ && _)%bool; discriminate.
    - exfalso. apply (first_repeat_not_NoDup _ _ _ H). unfold ts, FloatExamples.ts, sv_pairs; cbn. repeat constructor; cbn; intuition congruence.
  Qed.
  (** 20 rounds of Sums and of AverageLog: the errors are below 21 * 10 * 2^-50 and 21 * 14 * 2^-50, less than 3e-13 *)
  Example sizes : length (sources ts) = 3%nat /\ length (claims ts) = 6%nat /\ (exists s, (2 <= length (claims_of ts s))%nat) /\
    ((20 + 1) * Z.of_nat (3 + 6 + 5) <= 2 ^ 50)%Z /\ (Z.of_nat (3 * 6 * 6) ^ (20 + 1) <= 2 ^ 900)%Z.
  Proof. split; [reflexivity|]. split; [reflexivity|]. split; [exists 1%nat; vm_compute; lia|]. vm_compute. split; discriminate. Qed.
  Example accurate_run : exists d : dataset nat nat nat (B64 lm), build (F:=B64 lm) false None ts = Ok d /\
    (exists r x0, fst (run (F:=B64 lm) (fun _ => ofZ64 0) 30 (AObj Sums FIXED (IFixed 20 0) None) d) = Ok r /\ r_iterations r = Some 20%nat /\ prior_spec ts FIXED = Some x0 /\
       agrees (210 / 2 ^ 50) ts r (rounds (sums_step ts) ((fun _ => 0), x0) 20)) /\
    (exists r x0, fst (run (F:=B64 lm) (fun _ => ofZ64 0) 30 (AObj AverageLog VOTED (IFixed 20 0) None) d) = Ok r /\ r_iterations r = Some 20%nat /\ prior_spec ts VOTED = Some x0 /\
       agrees (294 / 2 ^ 50) ts r (rounds (avlog_step ts) ((fun _ => 0), x0) 20)).
  Proof.
    destruct builds as (d & E). exists d. split; [exact E|]. destruct sizes as (_ & _ & Two & _). split.
    - assert (B1 : ((20 + 1) * Z.of_nat (length (sources ts) + length (claims ts) + 1) <= 2 ^ 50)%Z) by (vm_compute; discriminate). assert (B2 : (Z.of_nat (length (sources ts) * length (claims ts)) ^ (20 + 1) <= 2 ^ 900)%Z) by (vm_compute; discriminate).
      exact (C73_sums_returns lm false None ts d E (fun _ => ofZ64 0) 30 FIXED 20 0 None ltac:(discriminate) ltac:(discriminate) ltac:(lia) ltac:(lia) B1 B2).
    - assert (B1 : ((20 + 1) * Z.of_nat (length (sources ts) + length (claims ts) + 5) <= 2 ^ 50)%Z) by (vm_compute; discriminate). assert (B2 : (Z.of_nat (length (sources ts) * length (claims ts) * length (claims ts)) ^ (20 + 1) <= 2 ^ 900)%Z) by (vm_compute; discriminate).
      assert (Hl : forall m, (1 <= m <= length (claims ts))%nat -> accurate (/ 2 ^ 52) (ln (INR m)) (lm_ln lm (ofZ64 (Z.of_nat m)))). { intros m (M1 & M2). apply lm_log; [exact M1|]. change (length (claims ts)) with 6%nat in M2. lia. }
      exact (C73_average_log_returns lm false None ts d E (fun _ => ofZ64 0) 30 VOTED 20 0 None ltac:(discriminate) ltac:(lia) ltac:(lia) Two Hl B1 B2).
  Qed.
  (** a margin as in C73_sums_winner: after one round from equal priors, x = 1 (two sources) has belief 1 and x = 2 (one source) has 1/2 *)
  Definition vs := AlgExamples.vs.
  Example margin : let bel := snd (rounds (sums_step vs) ((fun _ => 0), (fun _ => 1 / 2)) 1) in let e := INR ((1 + 1) * (length (sources vs) + length (claims vs) + 1)) / 2 ^ 50 in
    forall c', In c' (rivals vs (0, 1)%nat) -> c' <> (0, 1)%nat -> bel c' * (1 + e) < bel (0, 1)%nat * (1 - e).
  Proof.
    intros bel e c' Hc N. assert (c' = (0, 2)%nat) by (change (rivals vs (0, 1)%nat) with [(0, 2)%nat; (0, 1)%nat] in Hc || change (rivals vs (0, 1)%nat) with [(0, 1)%nat; (0, 2)%nat] in Hc; cbn [In] in Hc; intuition congruence). subst c'.
    assert (Ee : e = 12 / 2 ^ 50). { unfold e. change (INR ((1 + 1) * (length (sources vs) + length (claims vs) + 1))) with (INR 12). f_equal. cbn; lra. }
    assert (P : 12 / 2 ^ 50 <= 1 / 100) by lra. assert (P0 : 0 <= 12 / 2 ^ 50) by lra. rewrite Ee. clear Ee e. set (e := 12 / 2 ^ 50) in *. clearbody e.
    assert (M : forall c, bel c = (total_trust vs (total_belief vs (fun _ => 1 / 2)) c) / rmax (total_trust vs (total_belief vs (fun _ => 1 / 2))) (claims vs)) by reflexivity.
    assert (T1 : total_trust vs (total_belief vs (fun _ => 1 / 2)) (0, 1)%nat = 1) by (unfold total_trust, total_belief, supporters, claims_of; cbn; lra).
    assert (T2 : total_trust vs (total_belief vs (fun _ => 1 / 2)) (0, 2)%nat = 1 / 2) by (unfold total_trust, total_belief, supporters, claims_of; cbn; lra).
    assert (Mx : rmax (total_trust vs (total_belief vs (fun _ => 1 / 2))) (claims vs) = 1).
    { assert (In1 : In (0, 1)%nat (claims vs)) by (vm_compute; auto). pose proof (rmax_ge (total_trust vs (total_belief vs (fun _ => 1 / 2))) _ _ In1) as G. destruct (rmax_In (total_trust vs (total_belief vs (fun _ => 1 / 2))) (claims vs)) as (c & Hi & Er); [discriminate|].
      assert (c = (0, 1)%nat \/ c = (0, 2)%nat) as [->| ->] by (vm_compute in Hi; intuition); [|rewrite T1, Er, T2 in G; lra]. now rewrite Er. }
    rewrite !M, T1, T2, Mx. lra.
  Qed.
End AccuracyExamples.
