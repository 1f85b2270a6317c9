(** binary64: the IEEE double arithmetic numpy performs (round to nearest, ties to even), from Flocq's formalisation.
    [log], [exp] and [**] come from the C library, whose results IEEE 754 does not prescribe: they are parameters. *)
From Coq Require Import Reals Lra.
From Flocq Require Import Core IEEE754.BinarySingleNaN.
From Verif Require Import Base Num DatasetRep Ranking.
Local Open Scope R_scope.

#[global] Instance prec53 : Prec_gt_0 53 := eq_refl.
#[global] Instance lt53 : Prec_lt_emax 53 1024 := eq_refl.
Notation b64 := (binary_float 53 1024).
Notation B2R64 := (@B2R 53 1024).
Notation fin64 := (@is_finite 53 1024).
Notation fexp64 := (SpecFloat.fexp 53 1024).
Notation rnd := (round radix2 fexp64 (round_mode mode_NE)).

Record libm := Libm { lm_ln : b64 -> b64; lm_exp : b64 -> b64; lm_pow : b64 -> b64 -> b64 }.
Definition ofZ64 (z : Z) : b64 := binary_normalize 53 1024 _ _ mode_NE z 0 false.
Definition trunc64 (x : b64) : option Z := if is_finite x then Some (Btrunc x) else None.
Definition B64 (L : libm) : Num := {|
  num := b64; n_ofZ := ofZ64; n_add := Bplus mode_NE; n_sub := Bminus mode_NE; n_mul := Bmult mode_NE;
  n_div := Bdiv mode_NE; n_opp := @Bopp 53 1024; n_abs := @Babs 53 1024; n_sqrt := Bsqrt mode_NE;
  n_ln := lm_ln L; n_exp := lm_exp L; n_pow := lm_pow L; n_ltb := @Bltb 53 1024; n_eqb := @Beqb 53 1024;
  n_trunc := trunc64 |}.

#[global] Instance NumOK_B64 L : NumOK (B64 L).
Proof. unfold NumOK. cbn. vm_compute. reflexivity. Qed.

Lemma vexp : Valid_exp fexp64.
Proof. apply fexp_correct. exact prec53. Qed.
#[global] Existing Instance vexp.

(** ** rounding *)
Lemma fmt x : generic_format radix2 fexp64 (B2R64 x).
Proof. apply generic_format_B2R. Qed.
Lemma fmt_0 : generic_format radix2 fexp64 0.
Proof. apply generic_format_0. Qed.
Lemma fmt_int (i : Z) (e : Z) : (-1074 <= e)%Z -> (0 <= i <= 2 ^ 53)%Z -> generic_format radix2 fexp64 (IZR i * bpow radix2 e).
Proof.
  intros He [Hi Hi']. destruct (Z.eq_dec i (2 ^ 53)) as [->|N].
  - change (IZR (2 ^ 53)) with (bpow radix2 53). rewrite <- bpow_plus. apply generic_format_bpow. unfold SpecFloat.fexp, SpecFloat.emin. lia.
  - change (IZR i * bpow radix2 e) with (F2R (Float radix2 i e)). change fexp64 with (FLT_exp (-1074) 53). apply generic_format_FLT.
    exists (Float radix2 i e); [reflexivity|cbn [Fnum]; rewrite Z.abs_eq by lia; change (Zaux.radix2 ^ 53)%Z with (2 ^ 53)%Z; lia|exact He].
Qed.
Lemma fmt_bpow e : (-1074 <= e)%Z -> generic_format radix2 fexp64 (bpow radix2 e).
Proof. intros H. rewrite <- (Rmult_1_l (bpow radix2 e)). now apply (fmt_int 1). Qed.
Lemma fmt_1 : generic_format radix2 fexp64 1.
Proof. change 1 with (bpow radix2 0). apply fmt_bpow. lia. Qed.
Lemma rnd_id x : generic_format radix2 fexp64 x -> rnd x = x.
Proof. intros H. apply round_generic; auto with typeclass_instances. Qed.
Lemma rnd_le x y : x <= y -> rnd x <= rnd y.
Proof. intros H. apply round_le; auto with typeclass_instances. Qed.
Lemma rnd_le_fmt x y : generic_format radix2 fexp64 y -> x <= y -> rnd x <= y.
Proof. intros Hy H. rewrite <- (rnd_id y Hy). now apply rnd_le. Qed.
Lemma rnd_ge_fmt x y : generic_format radix2 fexp64 x -> x <= y -> x <= rnd y.
Proof. intros Hy H. rewrite <- (rnd_id x Hy) at 1. now apply rnd_le. Qed.

(** [isf x r]: the double x is finite and its value is the real number r *)
Definition isf (x : b64) (r : R) : Prop := is_finite x = true /\ B2R64 x = r.
Lemma isf_fmt x r : isf x r -> generic_format radix2 fexp64 r.
Proof. intros [_ <-]. apply fmt. Qed.
Lemma isf_fun x r r' : isf x r -> isf x r' -> r = r'.
Proof. intros [_ <-] [_ <-]. reflexivity. Qed.
Lemma isf_pos_inj x y r : isf x r -> isf y r -> r <> 0 -> x = y.
Proof.
  intros [Fx Ex] [Fy Ey] Hr. apply B2R_inj; [|  |congruence]; apply is_finite_strict_B2R; congruence.
Qed.
Lemma no_overflow x M : generic_format radix2 fexp64 M -> 0 <= x <= M -> M < bpow radix2 1024 -> Rlt_bool (Rabs (rnd x)) (bpow radix2 1024) = true.
Proof.
  intros HM [H0 H1] HB. apply Rlt_bool_true. rewrite Rabs_pos_eq.
  - eapply Rle_lt_trans; [apply (rnd_le_fmt x M HM H1)|exact HB].
  - apply (rnd_ge_fmt 0 x fmt_0 H0).
Qed.
Lemma add64 x y a b M : isf x a -> isf y b -> 0 <= a -> 0 <= b -> generic_format radix2 fexp64 M -> a + b <= M -> M < bpow radix2 1024 ->
  isf (Bplus mode_NE x y) (rnd (a + b)).
Proof.
  intros [Fx <-] [Fy <-] Ha Hb HM Hs HB. pose proof (Bplus_correct 53 1024 _ _ mode_NE x y Fx Fy) as C.
  rewrite (no_overflow _ M HM) in C by (auto; lra). destruct C as (C1 & C2 & _). now split.
Qed.
Lemma mul64 x y a b M : isf x a -> isf y b -> 0 <= a * b -> generic_format radix2 fexp64 M -> a * b <= M -> M < bpow radix2 1024 ->
  isf (Bmult mode_NE x y) (rnd (a * b)).
Proof.
  intros [Fx <-] [Fy <-] Ha HM Hs HB. pose proof (Bmult_correct 53 1024 _ _ mode_NE x y) as C.
  rewrite (no_overflow _ M HM) in C by (auto; lra). destruct C as (C1 & C2 & _). split; [|exact C1]. rewrite C2, Fx, Fy. reflexivity.
Qed.
Lemma div64 x y a b M : isf x a -> isf y b -> b <> 0 -> 0 <= a / b -> generic_format radix2 fexp64 M -> a / b <= M -> M < bpow radix2 1024 ->
  isf (Bdiv mode_NE x y) (rnd (a / b)).
Proof.
  intros [Fx <-] [Fy <-] Hb Ha HM Hs HB. pose proof (Bdiv_correct 53 1024 _ _ mode_NE x y Hb) as C.
  rewrite (no_overflow _ M HM) in C by (auto; lra). destruct C as (C1 & C2 & _). split; [|exact C1]. rewrite C2, Fx. reflexivity.
Qed.
Lemma ofZ64_isf z : (0 <= z <= 2 ^ 53)%Z -> isf (ofZ64 z) (IZR z).
Proof.
  intros H. pose proof (binary_normalize_correct 53 1024 _ _ mode_NE z 0 false) as C. cbv zeta in C.
  assert (E : F2R (Float radix2 z 0) = IZR z) by (unfold F2R; cbn [Fnum Fexp]; change (bpow radix2 0) with 1; lra).
  rewrite E in C. assert (G : generic_format radix2 fexp64 (IZR z)).
  { rewrite <- (Rmult_1_r (IZR z)). change 1 with (bpow radix2 0). apply fmt_int; [lia|exact H]. }
  assert (0 <= IZR z <= bpow radix2 53) by (split; [apply IZR_le; lia|apply (IZR_le z (2 ^ 53)); lia]).
  rewrite (no_overflow _ (bpow radix2 53)) in C; [|apply fmt_bpow; lia|assumption|apply bpow_lt; lia].
  destruct C as (C1 & C2 & _). split; [exact C2|]. unfold ofZ64. rewrite C1. now apply rnd_id.
Qed.
Lemma one64 : isf (ofZ64 1) 1. Proof. apply (ofZ64_isf 1). lia. Qed.
Lemma zero64 : isf (ofZ64 0) 0. Proof. apply (ofZ64_isf 0). lia. Qed.
Lemma ltb64 x y a b : isf x a -> isf y b -> Bltb x y = rltb a b.
Proof.
  intros [Fx <-] [Fy <-]. rewrite (Bltb_correct 53 1024 x y Fx Fy). destruct (rltb_spec (B2R64 x) (B2R64 y)); [now apply Rlt_bool_true|apply Rlt_bool_false; lra].
Qed.
Lemma eqb64 x y a b : isf x a -> isf y b -> Beqb x y = reqb a b.
Proof.
  intros [Fx <-] [Fy <-]. rewrite (Beqb_correct 53 1024 x y Fx Fy). destruct (reqb_spec (B2R64 x) (B2R64 y)); [now apply Req_bool_true|now apply Req_bool_false].
Qed.
(** multiplication by one is exact *)
Lemma one_mul64 x a : isf x a -> 0 <= a -> isf (Bmult mode_NE (ofZ64 1) x) a.
Proof.
  intros H Ha. rewrite <- (rnd_id a (isf_fmt x a H)). rewrite <- (Rmult_1_l a) at 1. apply (mul64 _ _ 1 a a); auto; try lra.
  - exact one64.
  - exact (isf_fmt _ _ H).
  - destruct H as [F <-]. rewrite <- (Rabs_pos_eq _ Ha). apply abs_B2R_lt_emax.
Qed.

(** ** sums of non-negative doubles *)
Definition within (lo hi : R) (x : b64) : Prop := exists r, isf x r /\ lo <= r <= hi.
Lemma sum64 (e : Z) (l : list b64) (n : nat) (a : b64) (r : R) : (-1074 <= e <= 900)%Z ->
  (Z.of_nat (n + length l) <= 2 ^ 53)%Z -> isf a r -> 0 <= r <= INR n * bpow radix2 e -> (forall x, In x l -> within 0 (bpow radix2 e) x) ->
  exists r', isf (fold_left (Bplus mode_NE) l a) r' /\ r <= r' <= INR (n + length l) * bpow radix2 e /\
    (forall x q, In x l -> isf x q -> q <= r').
Proof.
  intros He. revert n a r. induction l as [|x l IH]; intros n a r Hn Ha Hr Hl.
  - exists r. cbn. rewrite Nat.add_0_r. split; [exact Ha|]. split; [lra|]. intros x q [].
  - cbn [length] in Hn. destruct (Hl x (or_introl eq_refl)) as (q & Hq & Hq').
    assert (G : generic_format radix2 fexp64 (INR (S n) * bpow radix2 e)).
    { rewrite INR_IZR_INZ. apply fmt_int; lia. }
    assert (B : INR (S n) * bpow radix2 e < bpow radix2 1024).
    { apply Rle_lt_trans with (bpow radix2 53 * bpow radix2 e).
      - apply Rmult_le_compat_r; [apply bpow_ge_0|]. rewrite INR_IZR_INZ. apply (IZR_le _ (2 ^ 53)). lia.
      - rewrite <- bpow_plus. apply bpow_lt. lia. }
    assert (Q : r + q <= INR (S n) * bpow radix2 e) by (rewrite S_INR; lra).
    pose proof (add64 a x r q _ Ha Hq (proj1 Hr) (proj1 Hq') G Q B) as Hs.
    pose proof (isf_fmt _ _ Ha) as Fa. pose proof (isf_fmt _ _ Hq) as Fq.
    assert (L1 : r <= rnd (r + q)) by (apply rnd_ge_fmt; [exact Fa|lra]).
    assert (L2 : q <= rnd (r + q)) by (apply rnd_ge_fmt; [exact Fq|lra]).
    assert (L3 : rnd (r + q) <= INR (S n) * bpow radix2 e) by (now apply rnd_le_fmt).
    destruct (IH (S n) _ _ ltac:(lia) Hs ltac:(lra) (fun y Hy => Hl y (or_intror Hy))) as (r' & H1 & H2 & H3).
    exists r'. cbn [fold_left]. split; [exact H1|]. cbn [length]. rewrite Nat.add_succ_r. split; [exact (conj (Rle_trans _ _ _ L1 (proj1 H2)) (proj2 H2))|].
    intros y q' [->|Hy] Hq2; [rewrite (isf_fun _ _ _ Hq2 Hq); lra|eauto].
Qed.

(** ** the largest of finite doubles *)
Lemma fold_pymax64 (l : list b64) a r : isf a r -> (forall x, In x l -> exists q, isf x q) ->
  exists m q, m = fold_left (fun m y => if Bltb m y then y else m) l a /\ isf m q /\ (m = a \/ In m l) /\ r <= q /\ (forall x q', In x l -> isf x q' -> q' <= q).
Proof.
  revert a r. induction l as [|x l IH]; intros a r Ha Hl.
  - exists a, r. split; [reflexivity|]. repeat split; try apply Ha; auto; [lra|]. intros x q [].
  - destruct (Hl x (or_introl eq_refl)) as (q & Hq). cbn [fold_left]. rewrite (ltb64 _ _ _ _ Ha Hq). destruct (rltb_spec r q) as [L|L].
    + destruct (IH x q Hq (fun y Hy => Hl y (or_intror Hy))) as (m & q' & E & Hm & Hin & Hle & Hall).
      exists m, q'. split; [exact E|]. split; [exact Hm|]. split; [cbn; destruct Hin; auto|]. split; [lra|].
      intros y qy [->|Hy] Hqy; [rewrite (isf_fun _ _ _ Hqy Hq); lra|eauto].
    + destruct (IH a r Ha (fun y Hy => Hl y (or_intror Hy))) as (m & q' & E & Hm & Hin & Hle & Hall).
      exists m, q'. split; [exact E|]. split; [exact Hm|]. split; [cbn; destruct Hin; auto|]. split; [lra|].
      intros y qy [->|Hy] Hqy; [rewrite (isf_fun _ _ _ Hqy Hq); lra|eauto].
Qed.
Lemma pymax64 L (l : list b64) : l <> [] -> (forall x, In x l -> exists q, isf x q) ->
  exists m q, pymax (F:=B64 L) l = Some m /\ isf m q /\ In m l /\ (forall x q', In x l -> isf x q' -> q' <= q).
Proof.
  destruct l as [|x l]; [congruence|]. intros _ H. destruct (H x (or_introl eq_refl)) as (r & Hr).
  destruct (fold_pymax64 l x r Hr (fun y Hy => H y (or_intror Hy))) as (m & q & E & Hm & Hin & Hle & Hall).
  exists m, q. split; [cbn; now rewrite E|]. split; [exact Hm|]. split; [cbn; destruct Hin; auto|].
  intros y qy [->|Hy] Hqy; [rewrite (isf_fun _ _ _ Hqy Hr); lra|eauto].
Qed.
Lemma npmax64 L (l : list b64) : (forall x, In x l -> exists q, isf x q) -> npmax (F:=B64 L) l = pymax (F:=B64 L) l.
Proof.
  destruct l as [|x l]; [reflexivity|]. intros H. cbn [npmax pymax]. f_equal.
  assert (R : forall y, In y (x :: l) -> Beqb y y = true) by (intros y Hy; destruct (H y Hy) as (q & Hq); rewrite (eqb64 _ _ _ _ Hq Hq); apply reqb_refl).
  clear H. revert x R. induction l as [|y l IH]; intros x R; [reflexivity|]. cbn [fold_left]. change (@n_eqb (B64 L)) with (@Beqb 53 1024) in *. change (@n_ltb (B64 L)) with (@Bltb 53 1024) in *.
  rewrite !(R x), !(R y) by (cbn; auto). destruct (Bltb x y); apply IH; intros z [<-|Hz]; apply R; cbn; auto.
Qed.
(** dividing non-negative doubles by the largest of them *)
Lemma div_max64 x m a b : isf x a -> isf m b -> 0 <= a <= b -> 0 < b ->
  exists r, isf (Bdiv mode_NE x m) r /\ 0 <= r <= 1 /\ (a = b -> r = 1).
Proof.
  intros Hx Hm Hab Hb.
  assert (Q : 0 <= a / b <= 1).
  { split; [apply Rmult_le_pos; [lra|left; now apply Rinv_0_lt_compat]|]. apply (Rmult_le_reg_r b); [lra|]. unfold Rdiv. rewrite Rmult_assoc, Rinv_l; lra. }
  exists (rnd (a / b)). split; [|split; [split|]].
  - apply (div64 _ _ _ _ 1); auto; try lra; [exact fmt_1|change 1 with (bpow radix2 0); apply bpow_lt; lia].
  - apply (rnd_ge_fmt 0); [exact fmt_0|lra].
  - apply (rnd_le_fmt _ 1); [exact fmt_1|lra].
  - intros ->. unfold Rdiv. rewrite Rinv_r by lra. apply rnd_id, fmt_1.
Qed.
(** a quotient of a positive double by a larger one, both not extreme, is positive *)
Lemma div_pos64 x m a b : isf x a -> isf m b -> 1 <= a <= b -> b <= bpow radix2 900 ->
  exists r, isf (Bdiv mode_NE x m) r /\ 0 < r <= 1.
Proof.
  intros Hx Hm Hab Hb. destruct (div_max64 x m a b Hx Hm ltac:(lra) ltac:(lra)) as (r & Hr & Hr' & _).
  exists r. split; [exact Hr|]. split; [|lra].
  assert (Q : bpow radix2 (-900) <= a / b).
  { change (bpow radix2 (-900)) with (bpow radix2 (Z.opp 900)). rewrite bpow_opp. unfold Rdiv. rewrite <- (Rmult_1_l (/ bpow radix2 900)). apply Rmult_le_compat; [lra|left; apply Rinv_0_lt_compat, bpow_gt_0|lra|].
    apply Rinv_le; lra. }
  assert (Q1 : a / b <= 1).
  { apply (Rmult_le_reg_r b); [lra|]. unfold Rdiv. rewrite Rmult_assoc, Rinv_l; lra. }
  pose proof (bpow_gt_0 radix2 (-900)).
  assert (Hd : isf (Bdiv mode_NE x m) (rnd (a / b))).
  { apply (div64 _ _ _ _ 1); auto; try lra; [exact fmt_1|change 1 with (bpow radix2 0); apply bpow_lt; lia]. }
  rewrite (isf_fun _ _ _ Hr Hd). apply Rlt_le_trans with (bpow radix2 (-900)); [exact H|]. apply rnd_ge_fmt; [apply fmt_bpow; lia|exact Q].
Qed.

(** doubles other than NaN are ordered (with -0 = +0) *)
#[global] Instance B64_Ord L : OrdNum (B64 L) (fun x : b64 => is_nan x = false).
Proof.
  assert (K : exists k : b64 -> xr, (forall x, is_nan x = false -> k x <> NaN) /\
     (forall x y, is_nan x = false -> is_nan y = false -> Bltb x y = xltb (k x) (k y) /\ Beqb x y = xeqb (k x) (k y))).
  { exists (fun x => match x with B754_nan => NaN | B754_infinity false => PInf | B754_infinity true => NInf | _ => Fin (B2R64 x) end).
    split.
    - intros [s|[|]| |s m e H]; cbn; congruence.
    - intros x y Hx Hy.
      destruct (is_finite x && is_finite y) eqn:E.
      + apply andb_true_iff in E. destruct E as [Ex Ey].
        rewrite (ltb64 x y (B2R64 x) (B2R64 y)), (eqb64 x y (B2R64 x) (B2R64 y)) by (split; auto).
        destruct x as [s|[|]| |s m e H], y as [s'|[|]| |s' m' e' H']; cbn in Ex, Ey; try discriminate; split; reflexivity.
      + destruct x as [s|[|]| |[|] m e H], y as [s'|[|]| |[|] m' e' H']; cbn in E, Hx, Hy; try discriminate; split; try destruct s; try destruct s'; reflexivity. }
  destruct K as (k & K0 & K). destruct XR_Ord as [o1 o2 o3 o4 o5]. cbn in o1, o2, o3, o4, o5.
  split; cbn.
  - intros x Hx. rewrite (proj1 (K x x Hx Hx)). now apply o1, K0.
  - intros x y z Hx Hy Hz. rewrite (proj1 (K x y Hx Hy)), (proj1 (K y z Hy Hz)), (proj1 (K x z Hx Hz)). apply o2; now apply K0.
  - intros x y Hx Hy. rewrite (proj1 (K x y Hx Hy)), (proj2 (K x y Hx Hy)), (proj1 (K y x Hy Hx)). apply o3; now apply K0.
  - intros x y z Hx Hy Hz. rewrite (proj2 (K x y Hx Hy)), (proj1 (K y z Hy Hz)), (proj1 (K x z Hx Hz)). apply o4; now apply K0.
  - intros x y z Hx Hy Hz. rewrite (proj2 (K x y Hx Hy)), (proj1 (K z y Hz Hy)), (proj1 (K z x Hz Hx)). apply o5; now apply K0.
Qed.
