(** Property C84: synthetic data in double arithmetic.  The theorems of C14 and C15 that speak of probabilities, for the doubles
    numpy computes with: the parameter checks accept exactly the valid parameters, the sampler never refuses the distribution
    it is given nor falls off its end, and only values of positive probability are drawn. *)
From Coq Require Import Reals Lra Psatz.
From Flocq Require Import Core IEEE754.BinarySingleNaN.
From Verif Require Import Base Num Sparse Spec Dataset DatasetRep PropsData PyStr Matrix PropsMatrix Iterators Algorithms Results Supervised PropsSynth Float Accuracy.
Local Open Scope R_scope.
#[local] Existing Instance vexp.

Lemma sub64 x y a b : isf x a -> isf y b -> Rabs (a - b) <= 1 -> isf (Bminus mode_NE x y) (rnd (a - b)).
Proof.
  intros [Fx <-] [Fy <-] H. pose proof (Bminus_correct 53 1024 _ _ mode_NE x y Fx Fy) as C. rewrite Rlt_bool_true in C; [destruct C as (C1 & C2 & _); now split|].
  apply Rle_lt_trans with 1; [|change 1 with (bpow radix2 0); apply bpow_lt; lia]. apply Rabs_le_inv in H. apply Rabs_le. split.
  - apply rnd_ge_fmt; [|lra]. apply generic_format_opp, fmt_1.
  - apply rnd_le_fmt; [exact fmt_1|lra].
Qed.
Lemma last_cons {A} (x : A) l d : last (x :: l) d = last l x.
Proof. revert x d. induction l as [|y l IH]; intros x d; [reflexivity|]. change (last (x :: y :: l) d) with (last (y :: l) d). now rewrite IH, IH. Qed.
Lemma last_In {A} (l : list A) d : l <> [] -> In (last l d) l.
Proof. destruct l as [|x l]; [congruence|]. intros _. rewrite last_cons. revert x. induction l as [|y l IH]; intros x; [now left|]. right. rewrite last_cons. apply IH. Qed.
Lemma rnd_fmt x : generic_format radix2 fexp64 (rnd x).
Proof. apply generic_format_round; [exact vexp|apply valid_rnd_round_mode]. Qed.
Lemma rnd_0 : rnd 0 = 0. Proof. apply rnd_id, fmt_0. Qed.

(** ** partial sums in doubles *)
Fixpoint rcsum (acc : R) (xs : list R) : list R := match xs with [] => [] | x :: t => rnd (acc + x) :: rcsum (rnd (acc + x)) t end.
Lemma rcsum_ge acc xs c : generic_format radix2 fexp64 acc -> (forall x, In x xs -> 0 <= x) -> In c (rcsum acc xs) -> acc <= c.
Proof.
  revert acc. induction xs as [|x t IH]; intros acc Fa H; cbn [rcsum In]; [intros []|]. assert (0 <= x) by (apply H; now left).
  assert (L : acc <= rnd (acc + x)) by (apply rnd_ge_fmt; [exact Fa|lra]).
  intros [<-|Hc]; [exact L|]. apply IH in Hc; [exact (Rle_trans _ _ _ L Hc)|apply rnd_fmt|]. intros y Hy. apply H. now right.
Qed.
(** the number of partial sums that, divided by a positive number, do not exceed [u] is the index of an item with positive probability *)
Lemma draw_positive64 xs acc C u : 0 < C -> generic_format radix2 fexp64 acc -> (forall x, In x xs -> 0 <= x) -> rnd (acc / C) <= u ->
  u < rnd (last (rcsum acc xs) acc / C) ->
  exists x, nth_error xs (length (filter (fun c => rleb (rnd (c / C)) u) (rcsum acc xs))) = Some x /\ 0 < x.
Proof.
  intros PC. revert acc. induction xs as [|x t IH]; intros acc Fa H Ha Hl; [cbn [rcsum last] in Hl; exfalso; exact (Rlt_not_le _ _ Hl Ha)|]. cbn [rcsum filter]. assert (Hx : 0 <= x) by (apply H; now left).
  assert (Fa' : generic_format radix2 fexp64 (rnd (acc + x))) by (apply rnd_fmt).
  assert (Ht : forall y, In y t -> 0 <= y) by (intros y Hy; apply H; now right). destruct (rleb_spec (rnd (rnd (acc + x) / C)) u) as [Lq|Lq].
  - cbn [length nth_error]. apply IH; auto. replace (last (rcsum (rnd (acc + x)) t) (rnd (acc + x))) with (last (rcsum acc (x :: t)) acc); [exact Hl|].
    cbn [rcsum]. apply last_cons.
  - assert (E : filter (fun c => rleb (rnd (c / C)) u) (rcsum (rnd (acc + x)) t) = []).
    { assert (G : forall c, In c (rcsum (rnd (acc + x)) t) -> rleb (rnd (c / C)) u = false).
      { intros c Hc. apply rcsum_ge in Hc; auto. destruct (rleb_spec (rnd (c / C)) u) as [Q|]; [|reflexivity]. exfalso. apply Lq. eapply Rle_trans; [|exact Q].
        apply rnd_le. apply Rmult_le_compat_r; [left; now apply Rinv_0_lt_compat|exact Hc]. }
      induction (rcsum (rnd (acc + x)) t) as [|c l IHl]; [reflexivity|]. cbn [filter]. rewrite (G c) by now left. apply IHl. intros; apply G; now right. }
    rewrite E. exists x. split; [reflexivity|]. destruct Hx as [Hx| <-]; [exact Hx|]. exfalso. apply Lq. rewrite Rplus_0_r, (rnd_id acc Fa). exact Ha.
Qed.

Section Sampler.
  Variable L : libm.
  Notation F := (B64 L).
  (** the random numbers are finite doubles in [0, 1) *)
  Definition uniform64 (g : rng F) : Prop := forall k, exists u, isf (rn_unif g k : b64) u /\ 0 <= u < 1.

  Lemma cumsum_last (p : list F) (a : F) : last (cumsum a p) a = fold_left n_add p a.
  Proof. revert a. induction p as [|x p IH]; intros a; [reflexivity|]. cbn [cumsum fold_left]. rewrite last_cons. apply IH. Qed.
  (** the partial sums the sampler computes, as real numbers *)
  Lemma cumsum_isf (p : list b64) (n : nat) (a : b64) r : (Z.of_nat (n + length p) <= 2 ^ 53)%Z -> isf a r -> 0 <= r <= INR n ->
    (forall x, In x p -> within 0 1 x) -> Forall2 isf (cumsum (F:=F) a p) (rcsum r (map B2R64 p)).
  Proof.
    revert n a r. induction p as [|x p IH]; intros n a r Hn Ha Hr Hp; [constructor|]. cbn [cumsum map rcsum length] in *.
    destruct (Hp x (or_introl eq_refl)) as (q & Hq & Bq). pose proof (proj2 Hq) as Eq. rewrite Eq.
    assert (G : generic_format radix2 fexp64 (INR (S n))) by (rewrite <- (Rmult_1_r (INR (S n))), INR_IZR_INZ; change 1 with (bpow radix2 0); apply fmt_int; lia).
    assert (B : INR (S n) < bpow radix2 1024).
    { apply Rle_lt_trans with (bpow radix2 53); [|apply bpow_lt; lia]. rewrite INR_IZR_INZ. apply (IZR_le _ (2 ^ 53)). lia. }
    assert (Q : r + q <= INR (S n)) by (rewrite S_INR; lra).
    pose proof (add64 a x r q _ Ha Hq (proj1 Hr) (proj1 Bq) G Q B) as Hs. constructor; [exact Hs|].
    apply (IH (S n)); [lia|exact Hs| |intros y Hy; apply Hp; now right]. split; [apply rnd_ge_fmt; [exact fmt_0|lra]|now apply rnd_le_fmt].
  Qed.
  Lemma rcsum_le acc xs c d : generic_format radix2 fexp64 acc -> (forall x, In x xs -> 0 <= x) -> In c (rcsum acc xs) -> c <= last (rcsum acc xs) d.
  Proof.
    revert acc d. induction xs as [|x t IH]; intros acc d Fa H Hc; [destruct Hc|]. cbn [rcsum In] in *. rewrite last_cons. assert (Ht : forall y, In y t -> 0 <= y) by (intros y Hy; apply H; now right).
    destruct Hc as [<-|Hc]; [|exact (IH _ _ (rnd_fmt _) Ht Hc)]. destruct t as [|y t]; [cbn [rcsum last]; apply Rle_refl|].
    apply (rcsum_ge (rnd (acc + x)) (y :: t)); [apply rnd_fmt|exact Ht|]. apply last_In. discriminate.
  Qed.
  Lemma filter_isf (l : list b64) (rs : list R) (c : b64) C (u : b64) U : Forall2 isf l rs -> isf c C -> 0 < C -> isf u U -> (forall r, In r rs -> 0 <= r <= C) ->
    length (filter (fun x => n_leb (F:=F) x u) (map (fun x => n_div (n:=F) x c) l)) = length (filter (fun r => rleb (rnd (r / C)) U) rs).
  Proof.
    intros H2 Hc PC Hu Hr. induction H2 as [|x r l rs Hx H2 IH]; [reflexivity|]. cbn [map filter].
    assert (Br : 0 <= r <= C) by (apply Hr; now left).
    assert (D : isf (Bdiv mode_NE x c) (rnd (r / C))).
    { apply (div64 x c r C 1 Hx Hc); [lra| |exact fmt_1| |change 1 with (bpow radix2 0); apply bpow_lt; lia].
      - apply Rmult_le_pos; [lra|left; now apply Rinv_0_lt_compat].
      - apply (Rmult_le_reg_r C); [exact PC|]. unfold Rdiv. rewrite Rmult_assoc, Rinv_l by lra. lra. }
    assert (Q : n_leb (F:=F) (n_div (n:=F) x c) u = rleb (rnd (r / C)) U).
    { unfold n_leb, rleb. change (n_div (n:=F) x c) with (Bdiv mode_NE x c). change (Bltb (Bdiv mode_NE x c) u || Beqb (Bdiv mode_NE x c) u = rltb (rnd (r / C)) U || reqb (rnd (r / C)) U).
      now rewrite (ltb64 _ _ _ _ D Hu), (eqb64 _ _ _ _ D Hu). }
    rewrite Q. specialize (IH (fun r' H' => Hr r' (or_intror H'))). destruct (rleb (rnd (r / C)) U); cbn [length]; [f_equal|]; exact IH.
  Qed.

  Lemma choice_atol_isf : isf (choice_atol (F:=F) : b64) (bpow radix2 (-26)).
  Proof. split; [reflexivity|]. change (B2R64 (choice_atol (F:=F))) with (F2R (Float radix2 (Z.pos 4503599627370496) (-78))). unfold F2R. cbn [Fnum Fexp]. change (IZR 4503599627370496) with (bpow radix2 52). rewrite <- bpow_plus. reflexivity. Qed.
  Lemma n_leb64 (x y : b64) a b : isf x a -> isf y b -> n_leb (F:=F) x y = rleb a b.
  Proof. intros Hx Hy. change (Bltb x y || Beqb x y = rltb a b || reqb a b). now rewrite (ltb64 _ _ _ _ Hx Hy), (eqb64 _ _ _ _ Hx Hy). Qed.

  (** numpy's sampler accepts a list of probabilities whose sum is close enough to one, and draws an item of positive probability *)
  Lemma np_choice64 (g : rng F) k (p : list b64) r : uniform64 g -> (Z.of_nat (length p) <= 2 ^ 53)%Z -> (forall x, In x p -> within 0 1 x) ->
    isf (fold_left (Bplus mode_NE) p (ofZ64 0)) r -> Rabs (r - 1) <= bpow radix2 (-26) ->
    exists i x, np_choice (F:=F) g k p = Ok i /\ nth_error p i = Some x /\ 0 < B2R64 x.
  Proof.
    intros U Ln Hp Hs Hr. destruct (U k) as (u & Hu & Bu). unfold np_choice.
    assert (Sm : isf (vsum (F:=F) p : b64) r) by exact Hs.
    assert (E1 : n_eqb (n:=F) (vsum (F:=F) p) (vsum (F:=F) p) = true) by (change (Beqb (vsum (F:=F) p : b64) (vsum (F:=F) p : b64) = true); rewrite (eqb64 _ _ _ _ Sm Sm); apply reqb_refl). rewrite E1. cbn [negb].
    assert (E2 : existsb (fun x : F => n_ltb x (n_ofZ 0)) p = false).
    { apply Bool.not_true_is_false. intros Q. apply existsb_exists in Q. destruct Q as (y & Hy & Q). destruct (Hp y Hy) as (q & Hq & Bq). change (Bltb y (ofZ64 0) = true) in Q. rewrite (ltb64 _ _ _ _ Hq zero64), rltb_false in Q by lra. discriminate. }
    rewrite E2. assert (Q26 : bpow radix2 (-26) <= / 2) by (change (/ 2) with (bpow radix2 (-1)); apply bpow_le; lia).
    assert (E3 : n_ltb (n:=F) choice_atol (n_abs (n_sub (vsum (F:=F) p) (n_ofZ 1))) = false).
    { pose proof (sub64 _ _ _ _ Sm one64 ltac:(lra)) as [Fd Ed]. change (Bltb (choice_atol (F:=F) : b64) (Babs (Bminus mode_NE (vsum (F:=F) p : b64) (ofZ64 1))) = false).
      assert (Ha : isf (Babs (Bminus mode_NE (vsum (F:=F) p : b64) (ofZ64 1))) (Rabs (rnd (r - 1)))) by (split; [rewrite is_finite_Babs; exact Fd|rewrite B2R_Babs; now f_equal]).
      rewrite (ltb64 _ _ _ _ choice_atol_isf Ha). apply rltb_false. apply Rabs_le_inv in Hr. apply Rabs_le. split.
      - apply rnd_ge_fmt; [apply generic_format_opp, fmt_bpow; lia|lra].
      - apply rnd_le_fmt; [apply fmt_bpow; lia|lra]. }
    rewrite E3. assert (PC : 0 < r) by (apply Rabs_le_inv in Hr; lra).
    assert (NE : p <> []). { intros ->. cbn in Hs. pose proof (isf_fun _ _ _ Hs zero64). lra. }
    pose proof (cumsum_isf p 0 (ofZ64 0) 0 ltac:(cbn; exact Ln) zero64 ltac:(cbn; lra) Hp) as C2.
    assert (CL : last (cumsum (F:=F) (ofZ64 0) p : list b64) (ofZ64 0) = fold_left (Bplus mode_NE) p (ofZ64 0)) by exact (cumsum_last p (ofZ64 0)).
    set (rs := rcsum 0 (map B2R64 p)) in *. assert (Pos : forall x, In x (map B2R64 p) -> 0 <= x).
    { intros x Hx. apply in_map_iff in Hx. destruct Hx as (y & <- & Hy). destruct (Hp y Hy) as (q & [_ ->] & Bq). apply Bq. }
    assert (Lr : last rs 0 = r).
    { assert (G : forall (l : list b64) (l' : list R) a a', Forall2 isf l l' -> isf a a' -> isf (last l a) (last l' a')).
      { clear. intros l l' a a' H. revert a a'. induction H as [|x y l l' H0 H IH]; intros a a' Ha; [exact Ha|]. rewrite !last_cons. now apply IH. }
      pose proof (G _ _ _ _ C2 zero64) as Q. rewrite CL in Q. exact (isf_fun _ _ _ Q Hs). }
    destruct (draw_positive64 (map B2R64 p) 0 r u PC fmt_0 Pos) as (x & Hx & Px).
    { unfold Rdiv. rewrite Rmult_0_l, rnd_0. apply Bu. }
    { fold rs. rewrite Lr. unfold Rdiv. rewrite Rinv_r by lra. rewrite (rnd_id 1 fmt_1). apply Bu. }
    fold rs in Hx. rewrite nth_error_map in Hx. set (i := length (filter (fun c => rleb (rnd (c / r)) u) rs)) in *.
    destruct (nth_error p i) as [y|] eqn:Ey; [|discriminate]. injection Hx as Exy. exists i, y. split; [|split; [exact Ey|now rewrite Exy]].
    destruct (cumsum (F:=F) (n_ofZ 0) p) as [|c cs] eqn:Ecs; [destruct p; [congruence|discriminate]|]. cbv zeta.
    change (n_ofZ (n:=F) 0) with (ofZ64 0) in Ecs. rewrite Ecs in C2, CL. rewrite last_cons in CL.
    assert (Ei : length (filter (fun x0 : F => n_leb x0 (rn_unif g k)) (map (fun x0 : F => n_div x0 (last cs c)) (c :: cs))) = i).
    { apply (filter_isf (c :: cs) rs (last cs c) r (rn_unif g k) u C2); [exact (eq_ind_r (fun z : b64 => isf z r) Hs CL)|exact PC|exact Hu|].
      intros z Hz. split; [apply (rcsum_ge 0 (map B2R64 p) z fmt_0 Pos Hz)|]. rewrite <- Lr. apply (rcsum_le 0 (map B2R64 p) z 0 fmt_0 Pos Hz). }
    rewrite Ei. assert (Lt : (i < length p)%nat) by (apply nth_error_Some; congruence). apply Nat.ltb_lt in Lt.
    match goal with |- (if ?b then _ else _) = _ => replace b with true by (symmetry; exact Lt) end. reflexivity.
  Qed.

  (** ** the distribution of a claim *)
  Lemma gap64 a : generic_format radix2 fexp64 a -> a < 1 -> bpow radix2 (-53) <= 1 - a.
  Proof.
    intros Fa Ha. pose proof (pred_ge_gt radix2 fexp64 a 1 Fa fmt_1 Ha) as P. change 1 with (bpow radix2 0) in P at 1. rewrite (pred_bpow radix2 fexp64 0) in P. change (fexp64 0) with (-53)%Z in P. change (bpow radix2 0) with 1 in P. lra.
  Qed.
  Definition wrong64 (t : b64) (d : nat) : b64 := Bdiv mode_NE (Bminus mode_NE (ofZ64 1) t) (ofZ64 (Z.of_nat d - 1)).
  Lemma wrong64_ok t a d : isf t a -> 0 <= a <= 1 -> (2 <= d)%nat -> (Z.of_nat d <= 2 ^ 24)%Z ->
    exists w, isf (wrong64 t d) w /\ 0 <= w <= 1 /\ rel 2 w ((1 - a) / (INR d - 1)) /\ (a = 1 -> w = 0).
  Proof.
    intros Ht Ha Hd Hm. assert (D1 : 1 <= INR d - 1) by (apply le_INR in Hd; cbn in Hd; lra).
    assert (D2 : INR d - 1 <= bpow radix2 24) by (rewrite INR_IZR_INZ, <- minus_IZR; apply (IZR_le _ (2 ^ 24)); lia).
    pose proof (sub64 _ _ _ _ one64 Ht ltac:(apply Rabs_le; lra)) as Hs. pose proof (ofZ64_isf (Z.of_nat d - 1) ltac:(lia)) as Hz. rewrite minus_IZR, <- INR_IZR_INZ in Hz.
    set (y := rnd (1 - a)) in *. assert (By : 0 <= y <= 1) by (split; [apply rnd_ge_fmt; [exact fmt_0|lra]|apply rnd_le_fmt; [exact fmt_1|lra]]).
    assert (Bq : 0 <= y / (INR d - 1) <= 1).
    { split; [apply Rmult_le_pos; [lra|left; apply Rinv_0_lt_compat; lra]|]. apply (Rmult_le_reg_r (INR d - 1)); [lra|]. unfold Rdiv. rewrite Rmult_assoc, Rinv_l by lra. lra. }
    exists (rnd (y / (INR d - 1))). split.
    { apply (div64 _ _ y (INR d - 1) 1 Hs Hz); [lra|apply Bq|exact fmt_1|apply Bq|change 1 with (bpow radix2 0); apply bpow_lt; lia]. }
    split; [split; [apply rnd_ge_fmt; [exact fmt_0|apply Bq]|apply rnd_le_fmt; [exact fmt_1|apply Bq]]|].
    destruct (Req_dec a 1) as [E1|N1].
    - assert (Ey : y = 0) by (unfold y; rewrite E1, Rminus_diag_eq by reflexivity; apply rnd_0). rewrite Ey. unfold Rdiv at 1 3. rewrite Rmult_0_l, rnd_0. split; [|reflexivity]. rewrite E1, Rminus_diag_eq by reflexivity. unfold Rdiv. rewrite Rmult_0_l. unfold rel. lra.
    - split; [|contradiction]. pose proof (gap64 a (isf_fmt _ _ Ht) ltac:(lra)) as G. assert (G' : bpow radix2 (-53) <= y) by (apply rnd_ge_fmt; [apply fmt_bpow; lia|exact G]).
      apply (rel_trans 1 1 _ (y / (INR d - 1))).
      + apply rnd_rel. apply Rle_trans with (bpow radix2 (-53) / bpow radix2 24).
        * unfold Rdiv. rewrite <- bpow_opp, <- bpow_plus. apply bpow_le. lia.
        * unfold Rdiv. apply Rmult_le_compat; [apply bpow_ge_0|left; apply Rinv_0_lt_compat, bpow_gt_0|exact G'|]. apply Rinv_le_contravar; lra.
      + unfold Rdiv. rewrite !(Rmult_comm _ (/ (INR d - 1))). apply rel_scale; [left; apply Rinv_0_lt_compat; lra|]. apply rnd_rel. apply Rle_trans with (bpow radix2 (-53)); [apply bpow_le; lia|exact G].
  Qed.
  Definition dist64 (t : b64) (x d i : nat) : b64 := if Nat.eqb i x then t else wrong64 t d.
  Lemma prob_dist64 (t : b64) x d : (x < d)%nat -> prob_dist (F:=F) t x d = map (dist64 t x d) (seq 0 d).
  Proof.
    intros Hx. unfold prob_dist. cbv zeta. change (set_nth (repeat (wrong64 t d) d) x t = map (dist64 t x d) (seq 0 d)).
    apply nth_error_ext_all. intros i. rewrite set_nth_get, repeat_length, nth_error_map. destruct (Nat.ltb_spec x d); [|lia]. rewrite andb_true_r.
    destruct (Nat.lt_ge_cases i d) as [Hi|Hi].
    - assert (Es : nth_error (seq 0 d) i = Some i) by (rewrite nth_error_nth' with (d := 0%nat) by (now rewrite seq_length); now rewrite seq_nth).
      rewrite Es. cbn [option_map]. unfold dist64. destruct (Nat.eqb i x); [reflexivity|]. now apply nth_error_repeat.
    - assert (Es : nth_error (seq 0 d) i = None) by (apply nth_error_None; now rewrite seq_length). rewrite Es. cbn [option_map]. destruct (Nat.eqb_spec i x); [lia|]. apply nth_error_None. rewrite repeat_length. lia.
  Qed.
  Lemma dist64_ok t a x d i : isf t a -> 0 <= a <= 1 -> (2 <= d)%nat -> (Z.of_nat d <= 2 ^ 24)%Z -> exists q, isf (dist64 t x d i) q /\ 0 <= q <= 1 /\ rel 2 q (claim_prob a x d i).
  Proof.
    intros Ht Ha Hd Hm. unfold dist64, claim_prob. destruct (Nat.eqb i x).
    - exists a. split; [exact Ht|]. split; [exact Ha|]. apply (rel_mono 0); [lia|apply rel_refl; lra].
    - destruct (wrong64_ok t a d Ht Ha Hd Hm) as (w & H1 & H2 & H3 & _). eauto.
  Qed.
  Lemma ulp1_pow K : (Z.of_nat K <= 2 ^ 25)%Z -> ulp1 ^ K <= 1 + 2 * INR K * bpow radix2 (-52).
  Proof.
    pose proof (bpow_gt_0 radix2 (-52)) as P. induction K as [|K IH]; intros HK; [cbn; lra|]. specialize (IH ltac:(lia)). cbn [pow]. rewrite S_INR.
    assert (B : 2 * INR K * bpow radix2 (-52) <= 1).
    { apply Rle_trans with (2 * bpow radix2 25 * bpow radix2 (-52)).
      - apply Rmult_le_compat_r; [lra|]. apply Rmult_le_compat_l; [lra|]. rewrite INR_IZR_INZ. apply (IZR_le _ (2 ^ 25)). lia.
      - change 2 with (bpow radix2 1). rewrite <- !bpow_plus. change 1 with (bpow radix2 0). apply bpow_le. lia. }
    unfold ulp1 at 1. set (e := bpow radix2 (-52)) in *. clearbody e. pose proof (pos_INR K) as PK. set (k := INR K) in *. clearbody k. apply Rle_trans with ((1 + e) * (1 + 2 * k * e)); [apply Rmult_le_compat_l; lra|]. nra.
  Qed.
  (** the distribution handed to the sampler adds up to one, up to what the sampler tolerates *)
  Lemma dist64_sum t a x d : isf t a -> 0 <= a <= 1 -> (2 <= d)%nat -> (Z.of_nat d <= 2 ^ 24)%Z -> (x < d)%nat ->
    exists r, isf (fold_left (Bplus mode_NE) (map (dist64 t x d) (seq 0 d)) (ofZ64 0)) r /\ Rabs (r - 1) <= bpow radix2 (-26).
  Proof.
    intros Ht Ha Hd Hm Hx. destruct (sum_rel 0 (dist64 t x d) (claim_prob a x d) 2 (seq 0 d)) as (r & Hr & Rr & _); [lia|rewrite seq_length; lia| | |].
    - intros i _. destruct (dist64_ok t a x d i Ht Ha Hd Hm) as (q & H1 & H2 & _). exists q. auto.
    - intros i q _ Hq. destruct (dist64_ok t a x d i Ht Ha Hd Hm) as (q' & H1 & _ & H3). now rewrite (isf_fun _ _ _ Hq H1).
    - exists r. split; [exact Hr|]. rewrite claim_prob_sum, seq_length in Rr by assumption. destruct Rr as (R0 & _ & R1 & R2). rewrite Rmult_1_l in R1.
      pose proof (ulp1_pow (2 + d) ltac:(lia)) as Up. assert (B : 2 * INR (2 + d) * bpow radix2 (-52) <= bpow radix2 (-26)).
      { apply Rle_trans with (2 * bpow radix2 25 * bpow radix2 (-52)); [|change 2 with (bpow radix2 1); rewrite <- !bpow_plus; apply bpow_le; lia].
        apply Rmult_le_compat_r; [apply bpow_ge_0|]. apply Rmult_le_compat_l; [lra|]. rewrite INR_IZR_INZ. apply (IZR_le _ (2 ^ 25)). lia. }
      pose proof (bpow_gt_0 radix2 (-26)) as P. set (e := bpow radix2 (-26)) in *. clearbody e. set (U := ulp1 ^ (2 + d)) in *. clearbody U. apply Rabs_le. split; [|lra]. assert (1 <= r * (1 + e)) by (apply Rle_trans with (r * U); [exact R2|apply Rmult_le_compat_l; lra]). nra.
  Qed.
  (** a claim can always be generated, and has positive probability *)
  Lemma generate_claim64 (g : rng F) k t a x d : uniform64 g -> isf t a -> 0 <= a <= 1 -> (2 <= d)%nat -> (Z.of_nat d <= 2 ^ 24)%Z -> (x < d)%nat ->
    exists v, generate_claim (F:=F) g k t x d = Ok v /\ (v < d)%nat /\ 0 < B2R64 (dist64 t x d v).
  Proof.
    intros U Ht Ha Hd Hm Hx. unfold generate_claim. rewrite prob_dist64 by assumption. destruct (dist64_sum t a x d Ht Ha Hd Hm Hx) as (r & Hr & Br).
    destruct (np_choice64 g k (map (dist64 t x d) (seq 0 d)) r U) as (i & q & E & Hq & Pq); [rewrite map_length, seq_length; lia| |exact Hr|exact Br|].
    - intros y Hy. apply in_map_iff in Hy. destruct Hy as (i & <- & _). destruct (dist64_ok t a x d i Ht Ha Hd Hm) as (q & H1 & H2 & _). exists q. auto.
    - exists i. split; [exact E|]. rewrite nth_error_map in Hq. destruct (nth_error (seq 0 d) i) as [i'|] eqn:Es; [|discriminate]. injection Hq as <-.
      assert (Hi : (i < d)%nat) by (rewrite <- (seq_length d 0); apply nth_error_Some; congruence). rewrite nth_error_nth' with (d := 0%nat) in Es by (now rewrite seq_length). rewrite seq_nth in Es by exact Hi. cbn in Es. injection Es as <-. auto.
  Qed.

  (** ** the parameter checks *)
  Definition valid_trust64 (tr : list b64) : Prop := tr <> [] /\ forall t, In t tr -> exists a, isf t a /\ 0 <= a <= 1.
  Definition valid_prob64 (cp : b64) : Prop := cp = B754_nan \/ exists q, isf cp q /\ 0 < q <= 1.
  Lemma trust_check64 (tr : list b64) : existsb (fun x : F => negb (n_eqb x x)) tr || existsb (fun x : F => n_ltb x (n_ofZ 0)) tr || existsb (fun x : F => n_ltb (n_ofZ 1) x) tr = false <->
    forall t, In t tr -> exists a, isf t a /\ 0 <= a <= 1.
  Proof.
    rewrite !orb_false_iff. rewrite <- !Bool.not_true_iff_false, !existsb_exists. split.
    - intros [[H1 H2] H3] t Ht. destruct (is_finite t) eqn:Ff.
      + assert (Hf : isf t (B2R64 t)) by (split; auto). exists (B2R64 t). split; [exact Hf|]. split.
        * apply Rnot_lt_le. intros Lt. apply H2. exists t. split; [exact Ht|]. change (Bltb t (ofZ64 0) = true). rewrite (ltb64 _ _ _ _ Hf zero64). now apply rltb_true.
        * apply Rnot_lt_le. intros Lt. apply H3. exists t. split; [exact Ht|]. change (Bltb (ofZ64 1) t = true). rewrite (ltb64 _ _ _ _ one64 Hf). now apply rltb_true.
      + exfalso. destruct t as [s|[|]| |]; try discriminate.
        * apply H2. exists (B754_infinity true). split; [exact Ht|reflexivity].
        * apply H3. exists (B754_infinity false). split; [exact Ht|reflexivity].
        * apply H1. exists B754_nan. split; [exact Ht|reflexivity].
    - intros H. repeat split; intros (t & Ht & Q); destruct (H t Ht) as (a & Hf & Ha).
      + change (negb (Beqb t t) = true) in Q. rewrite (eqb64 _ _ _ _ Hf Hf), reqb_refl in Q. discriminate.
      + change (Bltb t (ofZ64 0) = true) in Q. rewrite (ltb64 _ _ _ _ Hf zero64), rltb_false in Q by lra. discriminate.
      + change (Bltb (ofZ64 1) t = true) in Q. rewrite (ltb64 _ _ _ _ one64 Hf), rltb_false in Q by lra. discriminate.
  Qed.
  Lemma prob_check64 (cp : b64) : n_leb (F:=F) cp (n_ofZ 0) || n_ltb (n:=F) (n_ofZ 1) cp = false <-> valid_prob64 cp.
  Proof.
    unfold valid_prob64. destruct (is_finite cp) eqn:Ff.
    - assert (Hf : isf cp (B2R64 cp)) by (split; auto). change (n_leb (F:=F) cp (ofZ64 0) || Bltb (ofZ64 1) cp = false <-> (cp = B754_nan \/ exists q, isf cp q /\ 0 < q <= 1)). rewrite (n_leb64 _ _ _ _ Hf zero64), (ltb64 _ _ _ _ one64 Hf), orb_false_iff. split.
      + intros [H1 H2]. right. exists (B2R64 cp). split; [exact Hf|]. destruct (rleb_spec (B2R64 cp) 0); [discriminate|]. destruct (rltb_spec 1 (B2R64 cp)); [discriminate|]. lra.
      + intros [->|(q & Hq & Bq)]; [discriminate|]. pose proof (isf_fun _ _ _ Hf Hq) as ->. split; [destruct (rleb_spec q 0); [lra|reflexivity]|apply rltb_false; lra].
    - destruct cp as [s|[|]| |]; try discriminate; split; intros H; try discriminate; try (now left); try reflexivity; destruct H as [H|(q & [H _] & _)]; discriminate.
  Qed.

  (** C84: accepted, for every outcome of the random generator, iff the parameters are valid *)
  Theorem C84_accepts_iff (g : rng F) (tr : trust_arg F) nv (cp : b64) dom : uniform64 g -> (dom <= 2 ^ 24)%Z ->
    ((exists q, generate (F:=F) g tr nv cp dom = Ok q) <-> exists v, tr = Trust1 v /\ valid_trust64 v /\ valid_prob64 cp /\ (2 <= dom)%Z /\ (1 <= nv)%Z).
  Proof.
    intros U Big. split.
    - intros [[m tv] E]. destruct tr as [v|n]; [|discriminate]. destruct (C15_complete _ _ _ _ _ _ _ E) as (Hn & _). exists v. cbn [generate] in E.
      destruct (Nat.eqb_spec (length v) 0); [discriminate|]. destruct (_ || _ || _) eqn:E1; [discriminate|]. destruct (_ || _) eqn:E2 in E; [discriminate|]. destruct (Z.leb_spec dom 1); [discriminate|].
      split; [reflexivity|]. split; [split; [intros ->; contradiction|now apply trust_check64]|]. split; [now apply prob_check64|]. split; lia.
    - intros (v & -> & [NE Ht] & Hc & Hd & Hn). cbn [generate]. destruct (Nat.eqb_spec (length v) 0) as [Le|_]; [destruct v; [exfalso; exact (NE eq_refl)|discriminate]|].
      rewrite (proj2 (trust_check64 v) Ht), (proj2 (prob_check64 cp) Hc). destruct (Z.leb_spec dom 1); [lia|]. destruct (Z.ltb_spec nv 0); [lia|]. cbv zeta.
      set (d := Z.to_nat dom). set (n := Z.to_nat nv). set (t := draw_true_values g n d). assert (Lt : length t = n) by apply draw_length.
      assert (Gen : forall (t' : F) x k, In t' v -> In x t -> exists w, generate_claim g k t' x d = Ok w).
      { intros t' x k H1 H2. destruct (Ht t' H1) as (a & Hf & Ha). apply draw_range in H2; [|unfold d; lia]. destruct (generate_claim64 g k t' a x d U Hf Ha) as (w & E & _); [unfold d; lia|unfold d; lia|exact H2|eauto]. }
      destruct (var_loop_total g v t cp d Gen (enum_from 0 t) (repeat (repeat None n) (length v), n) NE) as [st1 E1].
      { intros j x H1. apply enum_from_In in H1. destruct H1 as [_ H1]. now apply nth_error_In in H1. }
      rewrite E1. cbn [bind]. destruct (fill_loop_total g v t d Gen nv (seq 0 (length v)) st1) as [st2 E2].
      + rewrite Lt. unfold n. lia.
      + intros Q. apply (f_equal (@length _)) in Q. rewrite Lt in Q. unfold n in Q. cbn in Q. lia.
      + intros s Hs. apply in_seq in Hs. lia.
      + rewrite E2. cbn [bind]. eauto.
  Qed.
  (** C84: a source with trust 1 only makes true claims, one with trust 0 only false ones (0 being either zero) *)
  Theorem C84_trust_one_zero (g : rng F) (tr : list F) nv (cp : b64) dom m tv : uniform64 g -> (dom <= 2 ^ 24)%Z -> generate (F:=F) g (Trust1 tr) nv cp dom = Ok (m, tv) ->
    forall i j v x t, cell m i j = Some v -> nth_error tv j = Some x -> nth_error tr i = Some t -> (isf t 1 -> v = x) /\ (isf t 0 -> v <> x).
  Proof.
    intros U Big E i j v x t0 Hv Hx Ht0. assert (Valid : exists v0, Trust1 (F:=F) tr = Trust1 v0 /\ valid_trust64 v0 /\ valid_prob64 cp /\ (2 <= dom)%Z /\ (1 <= nv)%Z) by (apply (C84_accepts_iff g (Trust1 tr) nv cp dom U Big); eauto).
    destruct Valid as (v0 & E0 & Ht & Hc & Hd & Hn). injection E0 as <-. cbn [generate] in E. destruct (Nat.eqb_spec (length tr) 0) as [|Ltr]; [discriminate|]. destruct (_ || _ || _); [discriminate|]. destruct (_ || _) in E; [discriminate|].
    destruct (Z.leb_spec dom 1) as [|Hdom]; [discriminate|]. destruct (Z.ltb_spec nv 0) as [|Hnv]; [discriminate|]. cbv zeta in E.
    set (d := Z.to_nat dom) in *. set (n := Z.to_nat nv) in *. set (t := draw_true_values g n d) in *. assert (Lt : length t = n) by apply draw_length.
    apply bind_Ok in E. destruct E as (st1 & E1 & E). apply bind_Ok in E. destruct E as (st2 & E2 & E). injection E as <- <-.
    assert (D0 : drawn g tr t d (fst (repeat (repeat None n) (length tr), n))).
    { cbn [fst]. rewrite <- Lt. split; [apply shape_blank|]. intros s j' v' H. rewrite cell_blank in H. discriminate. }
    assert (Hen : forall j x, In (j, x) (enum_from 0 t) -> nth_error t j = Some x) by (intros j' x' H; apply enum_from_In in H; now rewrite Nat.sub_0_r in H).
    destruct (var_loop_ok g tr t cp d _ _ _ D0 Hen E1) as (D1 & _). destruct (fill_loop_ok g tr t d _ _ _ _ D1 E2) as ((_ & Dr) & _).
    destruct (Dr i j v Hv) as (q & x' & k & Hq & Hx' & Hg). rewrite Hx in Hx'. injection Hx' as <-. assert (Hxd : (x < d)%nat) by (apply nth_error_In, draw_range in Hx; unfold d in *; lia).
    assert (H2 : (2 <= d)%nat) by (unfold d; lia). assert (H3 : (Z.of_nat d <= 2 ^ 24)%Z) by (unfold d; lia). assert (Eq : q = t0) by (assert (Q : Some q = Some t0) by (exact (eq_trans (eq_sym Hq) Ht0)); now injection Q). subst q. split; intros Hf.
    - destruct (generate_claim64 g k t0 1 x d U Hf ltac:(lra) H2 H3 Hxd) as (w & Ew & _ & Pw). rewrite Hg in Ew. injection Ew as <-. unfold dist64 in Pw.
      destruct (Nat.eqb_spec v x) as [|N]; [assumption|]. exfalso. destruct (wrong64_ok t0 1 d Hf ltac:(lra) H2 H3) as (w & [_ Hw] & _ & _ & Zw). rewrite Hw, (Zw eq_refl) in Pw. lra.
    - destruct (generate_claim64 g k t0 0 x d U Hf ltac:(lra) H2 H3 Hxd) as (w & Ew & _ & Pw). rewrite Hg in Ew. injection Ew as <-. unfold dist64 in Pw.
      destruct (Nat.eqb_spec v x) as [|N]; [exfalso; destruct Hf as [_ Hf]; rewrite Hf in Pw; lra|assumption].
  Qed.
  (** C84: the distribution of a claim in doubles: each entry is within two roundings of the exact probability *)
  Theorem C84_probabilities (t : b64) a x d : isf t a -> 0 <= a <= 1 -> (2 <= d)%nat -> (Z.of_nat d <= 2 ^ 24)%Z -> (x < d)%nat ->
    length (prob_dist (F:=F) t x d) = d /\
    forall i (p : b64), nth_error (prob_dist (F:=F) t x d) i = Some p -> exists q, isf p q /\ 0 <= q <= 1 /\
      (i = x -> q = a) /\ (i <> x -> rel 2 q ((1 - a) / (INR d - 1))).
  Proof.
    intros Ht Ha Hd Hm Hx. rewrite prob_dist64 by exact Hx. split; [now rewrite map_length, seq_length|]. intros i p Hi. rewrite nth_error_map in Hi. destruct (nth_error (seq 0 d) i) as [i'|] eqn:Es; [|discriminate]. injection Hi as <-.
    assert (Hi : (i < d)%nat) by (rewrite <- (seq_length d 0); apply nth_error_Some; congruence). rewrite nth_error_nth' with (d := 0%nat) in Es by (now rewrite seq_length). rewrite seq_nth in Es by exact Hi. cbn in Es. injection Es as <-.
    destruct (dist64_ok t a x d i Ht Ha Hd Hm) as (q & H1 & H2 & H3). exists q. split; [exact H1|]. split; [exact H2|]. unfold dist64, claim_prob in *. destruct (Nat.eqb_spec i x) as [Ei|Ni]; split; intros Q; try contradiction; [exact (isf_fun _ _ _ H1 Ht)|exact H3].
  Qed.
End Sampler.

(** ** a concrete case meeting the hypotheses: three sources with trust 1, 0 and 0.75; two variables with three possible values *)
Module Synth64Examples.
  Section Ex.
    Variable L : libm.
    Definition half : b64 := Bdiv mode_NE (ofZ64 1) (ofZ64 2).
    Definition tq : b64 := Bdiv mode_NE (ofZ64 3) (ofZ64 4).
    Definition g : rng (B64 L) := RNG (F:=B64 L) (fun k => (k + 1)%nat) (fun k => if Nat.even k then half else tq : b64).
    Lemma half_isf : isf half (1 / 2).
    Proof. split; [reflexivity|]. change (B2R64 half) with (F2R (Float radix2 4503599627370496 (-53))). unfold F2R. cbn. lra. Qed.
    Lemma tq_isf : isf tq (3 / 4).
    Proof. split; [reflexivity|]. change (B2R64 tq) with (F2R (Float radix2 6755399441055744 (-53))). unfold F2R. cbn. lra. Qed.
    Lemma g_uniform : uniform64 L g.
    Proof. intros k. cbn [g rn_unif]. destruct (Nat.even k); [exists (1 / 2); split; [exact half_isf|lra]|exists (3 / 4); split; [exact tq_isf|lra]]. Qed.
    Definition trust3 : list b64 := [ofZ64 1; ofZ64 0; tq].
    Lemma trust3_valid : valid_trust64 trust3.
    Proof.
      split; [discriminate|]. intros t [<-|[<-|[<-|[]]]]; [exists 1; split; [exact one64|lra]|exists 0; split; [exact zero64|lra]|exists (3 / 4); split; [exact tq_isf|lra]].
    Qed.
    Example accepted : exists q, generate (F:=B64 L) g (Trust1 (F:=B64 L) trust3) 2 half 3 = Ok q.
    Proof.
      apply (proj2 (C84_accepts_iff L g (Trust1 (F:=B64 L) trust3) 2 half 3 g_uniform ltac:(lia))). exists trust3. split; [reflexivity|]. split; [exact trust3_valid|].
      split; [right; exists (1 / 2); split; [exact half_isf|lra]|lia].
    Qed.
    (** the data drawn: true values 1 and 2; the first source claims both, the second neither *)
    Example drawn_data : exists m tv, generate (F:=B64 L) g (Trust1 (F:=B64 L) trust3) 2 half 3 = Ok (m, tv) /\ tv = [1%nat; 2%nat] /\ cell m 0 0 = Some 1%nat /\ cell m 1 0 <> Some 1%nat.
    Proof. eexists _, _. split; [vm_compute; reflexivity|]. split; [reflexivity|]. split; [reflexivity|]. discriminate. Qed.
  End Ex.
End Synth64Examples.
