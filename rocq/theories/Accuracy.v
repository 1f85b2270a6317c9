(** Relative rounding errors of sums and quotients of non-negative doubles. *)
From Coq Require Import Reals Lra Psatz.
From Flocq Require Import Core IEEE754.BinarySingleNaN Relative Plus_error.
From Verif Require Import Base Num Float.
Local Open Scope R_scope.

(** one unit in the last place of 1: every correctly rounded operation errs by a factor of at most [ulp1] either way *)
Definition ulp1 : R := 1 + bpow radix2 (-52).
(** [a] and [b] are non-negative and differ by a factor of at most ulp1^K either way *)
Definition rel (K : nat) (a b : R) : Prop := 0 <= a /\ 0 <= b /\ a <= b * ulp1 ^ K /\ b <= a * ulp1 ^ K.

Lemma ulp1_gt : 1 < ulp1. Proof. unfold ulp1. pose proof (bpow_gt_0 radix2 (-52)). lra. Qed.
Lemma up_pos K : 0 < ulp1 ^ K. Proof. apply pow_lt. pose proof ulp1_gt. lra. Qed.
Lemma up_ge1 K : 1 <= ulp1 ^ K. Proof. apply pow_R1_Rle. pose proof ulp1_gt. lra. Qed.
Lemma rel_refl a : 0 <= a -> rel 0 a a. Proof. intros H. unfold rel. cbn. lra. Qed.
Lemma rel_sym K a b : rel K a b -> rel K b a. Proof. unfold rel. tauto. Qed.
Lemma rel_trans K J a b c : rel K a b -> rel J b c -> rel (K + J) a c.
Proof.
  intros (A & B & H1 & H2) (B' & C & H3 & H4). unfold rel. rewrite pow_add. pose proof (up_pos K). pose proof (up_pos J). split; [exact A|split; [exact C|]]. split.
  - apply Rle_trans with (b * ulp1 ^ K); [exact H1|]. apply Rle_trans with (c * ulp1 ^ J * ulp1 ^ K); [apply Rmult_le_compat_r; lra|right; ring].
  - apply Rle_trans with (b * ulp1 ^ J); [exact H4|]. apply Rle_trans with (a * ulp1 ^ K * ulp1 ^ J); [apply Rmult_le_compat_r; lra|right; ring].
Qed.
Lemma rel_mono K J a b : (K <= J)%nat -> rel K a b -> rel J a b.
Proof.
  intros L (A & B & H1 & H2). assert (P : ulp1 ^ K <= ulp1 ^ J) by (apply Rle_pow; [pose proof ulp1_gt; lra|exact L]). unfold rel. split; [exact A|split; [exact B|]].
  split; (eapply Rle_trans; [eassumption|]); apply Rmult_le_compat_l; assumption.
Qed.
Lemma rel_scale K c a b : 0 <= c -> rel K a b -> rel K (c * a) (c * b).
Proof.
  intros C (A & B & H1 & H2). unfold rel. split; [now apply Rmult_le_pos|]. split; [now apply Rmult_le_pos|]. rewrite !Rmult_assoc. split; apply Rmult_le_compat_l; assumption.
Qed.
Lemma rel_add K a b a' b' : rel K a b -> rel K a' b' -> rel K (a + a') (b + b').
Proof. intros (A & B & H1 & H2) (A' & B' & H1' & H2'). unfold rel. rewrite !Rmult_plus_distr_r. lra. Qed.
Lemma rel_mul K J a b a' b' : rel K a b -> rel J a' b' -> rel (K + J) (a * a') (b * b').
Proof.
  intros H H'. apply rel_trans with (b * a').
  - rewrite (Rmult_comm a), (Rmult_comm b). apply rel_scale; [apply H'|exact H].
  - apply rel_scale; [apply H|exact H'].
Qed.
Lemma rel_zero K a b : rel K a b -> b = 0 -> a = 0.
Proof. intros (A & B & H1 & H2) ->. lra. Qed.
Lemma rel_pos K a b : rel K a b -> 0 < b -> 0 < a.
Proof. intros R P. destruct R as (A & B & H1 & H2). destruct (Req_dec a 0) as [->|N]; [|lra]. pose proof (up_pos K). nra. Qed.
Lemma rel_inv K a b : 0 < b -> rel K a b -> rel K (/ a) (/ b).
Proof.
  intros Hb R. pose proof (rel_pos _ _ _ R Hb) as Ha. destruct R as (A & B & H1 & H2). pose proof (up_pos K) as P.
  assert (Ia : 0 < / a) by now apply Rinv_0_lt_compat. assert (Ib : 0 < / b) by now apply Rinv_0_lt_compat.
  assert (X : a * / a = 1) by (apply Rinv_r; lra). assert (Y : b * / b = 1) by (apply Rinv_r; lra).
  unfold rel. split; [lra|]. split; [lra|]. split.
  - apply (Rmult_le_reg_l (a * b)); [nra|]. replace (a * b * / a) with (b * (a * / a)) by ring. replace (a * b * (/ b * ulp1 ^ K)) with (a * ulp1 ^ K * (b * / b)) by ring. rewrite X, Y. lra.
  - apply (Rmult_le_reg_l (a * b)); [nra|]. replace (a * b * / b) with (a * (b * / b)) by ring. replace (a * b * (/ a * ulp1 ^ K)) with (b * ulp1 ^ K * (a * / a)) by ring. rewrite X, Y. lra.
Qed.
Lemma rel_div K J a b a' b' : 0 < b' -> rel K a b -> rel J a' b' -> rel (K + J) (a / a') (b / b').
Proof. intros P H H'. unfold Rdiv. apply rel_mul; [exact H|now apply rel_inv]. Qed.
(** sums of related terms are related *)
Lemma rel_rsum {A} K (f g : A -> R) l : (forall x, In x l -> rel K (f x) (g x)) -> rel K (rsum f l) (rsum g l).
Proof.
  induction l as [|x l IH]; intros H; cbn.
  - unfold rel. lra.
  - apply rel_add; [apply H; now left|apply IH; intros; apply H; now right].
Qed.

(** ** one rounding *)
Lemma rel_of_error x y : 0 <= x -> Rabs (y - x) <= bpow radix2 (-53) * x -> rel 1 y x.
Proof.
  intros Hx H. apply Rabs_le_inv in H. unfold rel. cbn [pow]. rewrite Rmult_1_r. unfold ulp1.
  assert (E : bpow radix2 (-52) = 2 * bpow radix2 (-53)) by (change (-52)%Z with (1 + -53)%Z; rewrite bpow_plus; reflexivity). rewrite E.
  assert (P : 0 < bpow radix2 (-53)) by apply bpow_gt_0. assert (Q : bpow radix2 (-53) <= 1 / 4) by (change (1 / 4) with (1 * / 4); change (/ 4) with (bpow radix2 (-2)); rewrite Rmult_1_l; apply bpow_le; lia).
  set (u := bpow radix2 (-53)) in *. clearbody u. split; [nra|]. split; [exact Hx|]. split; [nra|].
  assert ((1 - u) * x <= y) by lra. assert (x <= ((1 - u) * x) * (1 + 2 * u)) by nra. apply Rle_trans with ((1 - u) * x * (1 + 2 * u)); [assumption|]. apply Rmult_le_compat_r; lra.
Qed.
Lemma rnd_rel x : bpow radix2 (-1022) <= x -> rel 1 (rnd x) x.
Proof.
  intros H. assert (Px : 0 < x) by (pose proof (bpow_gt_0 radix2 (-1022)); lra). apply rel_of_error; [lra|].
  assert (G : Rabs (rnd x - x) <= / 2 * bpow radix2 (- (53) + 1) * Rabs x).
  { change fexp64 with (FLT_exp (-1074) 53). apply (relative_error_N_FLT radix2 (-1074) 53 prec53 (fun n => negb (Z.even n)) x). rewrite Rabs_pos_eq by lra. exact H. }
  rewrite (Rabs_pos_eq x) in G by lra. eapply Rle_trans; [exact G|]. right. f_equal. change (- (53) + 1)%Z with (1 + -53)%Z. rewrite bpow_plus. change (bpow radix2 1) with 2. lra.
Qed.
Lemma rnd_add_rel a b : generic_format radix2 fexp64 a -> generic_format radix2 fexp64 b -> 0 <= a -> 0 <= b -> rel 1 (rnd (a + b)) (a + b).
Proof.
  intros Fa Fb Ha Hb. destruct (Rle_dec (bpow radix2 (-1022)) (a + b)) as [L|L]; [now apply rnd_rel|].
  rewrite rnd_id; [apply (rel_mono 0); [lia|apply rel_refl; lra]|].
  assert (G : generic_format radix2 (FLT_exp (-1074) 53) (a + b)); [|exact G].
  apply FLT_format_plus_small; [exact prec53|exact Fa|exact Fb|]. rewrite Rabs_pos_eq by lra. apply Rle_trans with (bpow radix2 (-1022)); [lra|]. apply bpow_le. lia.
Qed.

(** ** sums in doubles *)
Lemma sum_rel (e : Z) {A} (g : A -> b64) (f : A -> R) K (l : list A) : (-1074 <= e <= 900)%Z -> (Z.of_nat (length l) <= 2 ^ 53)%Z ->
  (forall x, In x l -> within 0 (bpow radix2 e) (g x)) -> (forall x q, In x l -> isf (g x) q -> rel K q (f x)) ->
  exists r, isf (fold_left (Bplus mode_NE) (map g l) (ofZ64 0)) r /\ rel (K + length l) r (rsum f l) /\ 0 <= r <= bpow radix2 (e + 53).
Proof.
  intros He. induction l as [|x l IH] using rev_ind; intros Hn Hg Hf.
  - exists 0. cbn. split; [exact zero64|]. split; [unfold rel; lra|]. split; [lra|apply bpow_ge_0].
  - rewrite app_length in Hn. cbn [length] in Hn.
    destruct (IH ltac:(lia) (fun y Hy => Hg y (in_or_app _ _ _ (or_introl Hy))) (fun y q Hy => Hf y q (in_or_app _ _ _ (or_introl Hy)))) as (r & Hr & Rr & _). clear IH.
    destruct (sum64 e (map g l) 0 (ofZ64 0) 0) as (r0 & H0 & H1 & _); [exact He|rewrite map_length; lia|exact zero64|cbn; lra|intros y Hy; apply in_map_iff in Hy; destruct Hy as (z & <- & Hz); apply Hg, in_or_app; now left|].
    pose proof (isf_fun _ _ _ H0 Hr) as ->. rewrite map_length in H1. cbn [Nat.add] in H1.
    destruct (Hg x (in_or_app l [x] x (or_intror (or_introl eq_refl)))) as (q & Hq & Bq).
    assert (G : generic_format radix2 fexp64 (INR (S (length l)) * bpow radix2 e)) by (rewrite INR_IZR_INZ; apply fmt_int; lia).
    assert (B0 : INR (S (length l)) * bpow radix2 e <= bpow radix2 (e + 53)). { rewrite Z.add_comm, bpow_plus. apply Rmult_le_compat_r; [apply bpow_ge_0|]. rewrite INR_IZR_INZ. apply (IZR_le _ (2 ^ 53)). lia. }
    assert (B : INR (S (length l)) * bpow radix2 e < bpow radix2 1024) by (eapply Rle_lt_trans; [exact B0|apply bpow_lt; lia]).
    assert (Q : r + q <= INR (S (length l)) * bpow radix2 e) by (rewrite S_INR; lra).
    pose proof (add64 _ _ _ _ _ Hr Hq (proj1 H1) (proj1 Bq) G Q B) as Hs. rewrite map_app, fold_left_app. cbn [map fold_left]. exists (rnd (r + q)). split; [exact Hs|]. split.
    + rewrite rsum_app. cbn [rsum]. rewrite Rplus_0_r, app_length. cbn [length]. rewrite Nat.add_assoc. rewrite (Nat.add_comm (K + length l) 1). apply rel_trans with (r + q).
      * apply rnd_add_rel; [exact (isf_fmt _ _ Hr)|exact (isf_fmt _ _ Hq)|apply H1|apply Bq].
      * apply rel_add; [exact Rr|]. apply (rel_mono K); [lia|]. apply Hf; [apply in_or_app; right; now left|exact Hq].
    + split; [apply rnd_ge_fmt; [exact fmt_0|lra]|]. apply Rle_trans with (INR (S (length l)) * bpow radix2 e); [|exact B0]. now apply rnd_le_fmt.
Qed.
