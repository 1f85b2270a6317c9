(** Sums of non-negative doubles are monotone, infinities included. *)
From Coq Require Import Reals Lra.
From Flocq Require Import Core IEEE754.BinarySingleNaN.
From Verif Require Import Base Num Float.
Local Open Scope R_scope.

Definition inf64 : b64 := B754_infinity false.
(** x <= y; in particular neither is NaN *)
Definition le64 (x y : b64) : Prop := Bleb x y = true.
Definition nneg (x : b64) : Prop := le64 (ofZ64 0) x.

Lemma le_fin x y a b : isf x a -> isf y b -> (le64 x y <-> a <= b).
Proof.
  intros [Fx <-] [Fy <-]. unfold le64. rewrite (Bleb_correct 53 1024 x y Fx Fy). split; intros H; [|now apply Rle_bool_true]. destruct (Rle_lt_dec (B2R64 x) (B2R64 y)) as [Q|Q]; [exact Q|]. rewrite (Rle_bool_false _ _ Q) in H. discriminate.
Qed.
Lemma nneg_cases x : nneg x <-> x = inf64 \/ exists a, isf x a /\ 0 <= a.
Proof.
  split.
  - intros H. destruct (is_finite x) eqn:Fx.
    + right. exists (B2R64 x). split; [now split|]. apply (le_fin (ofZ64 0) x 0 (B2R64 x)); [exact zero64|now split|exact H].
    + left. destruct x as [s|[|]| |s m e Hm]; try discriminate; try reflexivity; exfalso; revert H; unfold nneg, le64; vm_compute; discriminate.
  - intros [->|(a & Ha & P)]; [reflexivity|]. now apply (le_fin _ _ 0 a zero64 Ha).
Qed.
Lemma le_inf x : nneg x -> le64 x inf64.
Proof. intros H. apply nneg_cases in H. destruct H as [->|(a & (Fx & _) & _)]; [reflexivity|]. destruct x as [s|s| |[|] m e Hm]; try discriminate; try reflexivity; destruct s; reflexivity. Qed.
Lemma inf_not_le x a : isf x a -> ~ le64 inf64 x.
Proof. intros (Fx & _). unfold le64. destruct x as [s|s| |[|] m e Hm]; try discriminate; try (destruct s); cbn; discriminate. Qed.
Lemma nneg_fin x a : isf x a -> 0 <= a -> nneg x.
Proof. intros H P. apply nneg_cases. right. eauto. Qed.
Lemma le_refl64 x : nneg x -> le64 x x.
Proof. intros H. apply nneg_cases in H. destruct H as [->|(a & Ha & P)]; [reflexivity|]. apply (le_fin x x a a); auto. lra. Qed.
Lemma le_cases x y : nneg x -> nneg y -> (le64 x y <-> y = inf64 \/ exists a b, isf x a /\ isf y b /\ a <= b).
Proof.
  intros Hx Hy. split.
  - intros H. pose proof Hy as Hy'. apply nneg_cases in Hy'. destruct Hy' as [->|(b & Hb & Pb)]; [now left|]. right. apply nneg_cases in Hx. destruct Hx as [->|(a & Ha & Pa)]; [exfalso; exact (inf_not_le _ _ Hb H)|].
    exists a, b. split; [exact Ha|]. split; [exact Hb|]. now apply (le_fin x y a b).
  - intros [->|(a & b & Ha & Hb & H)]; [now apply le_inf|]. now apply (le_fin x y a b).
Qed.
Lemma le_trans64 x y z : nneg x -> nneg y -> nneg z -> le64 x y -> le64 y z -> le64 x z.
Proof.
  intros Hx Hy Hz H1 H2. apply (le_cases y z Hy Hz) in H2. destruct H2 as [->|(b & c & Hb & Hc & L)]; [now apply le_inf|].
  apply (le_cases x y Hx Hy) in H1. destruct H1 as [->|(a & b' & Ha & Hb' & L')]; [destruct Hb; discriminate|].
  assert (b = b') by (eapply isf_fun; eauto). subst b'. apply (le_fin x z a c); auto. lra.
Qed.
(** a sum of two non-negative doubles is infinite, or it is the rounded sum *)
Lemma plus_fin x y a b : isf x a -> isf y b -> 0 <= a -> 0 <= b ->
  (bpow radix2 1024 <= rnd (a + b) /\ Bplus mode_NE x y = inf64) \/ (rnd (a + b) < bpow radix2 1024 /\ isf (Bplus mode_NE x y) (rnd (a + b))).
Proof.
  intros [Fx Ex] [Fy Ey] Ha Hb. pose proof (Bplus_correct 53 1024 _ _ mode_NE x y Fx Fy) as C. change (B2R x) with (B2R64 x) in C. change (B2R y) with (B2R64 y) in C. rewrite Ex, Ey in C.
  assert (P : 0 <= rnd (a + b)) by (apply (rnd_ge_fmt 0 _ fmt_0); lra).
  change (Generic_fmt.round radix2 (SpecFloat.fexp 53 1024) (round_mode mode_NE) (a + b)) with (rnd (a + b)) in C. rewrite (Rabs_pos_eq _ P) in C.
  destruct (Rlt_bool_spec (rnd (a + b)) (bpow radix2 1024)) as [H|H].
  - right. split; [exact H|]. destruct C as (C1 & C2 & _). split; [exact C2|exact C1].
  - left. split; [exact H|]. destruct C as (C & Sg). apply B2SF_inj. rewrite C.
    destruct (Bsign x) eqn:Sx; [|reflexivity]. exfalso.
    assert (Z : forall z : b64, is_finite z = true -> 0 <= B2R64 z -> Bsign z = true -> B2R64 z = 0).
    { intros z Fz Pz Sz. destruct z as [s|s| |s m e Hm]; try discriminate; [reflexivity|]. cbn in Sz. subst s. exfalso. unfold B2R64 in Pz. cbn in Pz. assert (F2R (Float radix2 (Z.neg m) e) < 0) by (apply F2R_lt_0; cbn; lia). cbn in Pz. lra. }
    rewrite <- Ex in Ha. rewrite <- Ey in Hb. pose proof (Z x Fx Ha Sx) as Zx. pose proof (Z y Fy Hb (eq_sym Sg)) as Zy. rewrite <- Ex, <- Ey, Zx, Zy, Rplus_0_r, (rnd_id 0 fmt_0) in H. pose proof (bpow_gt_0 radix2 1024). lra.
Qed.
Lemma plus_inf_l y : nneg y -> Bplus mode_NE inf64 y = inf64.
Proof. intros H. apply nneg_cases in H. destruct H as [->|(a & (Fy & _) & _)]; [reflexivity|]. destruct y as [s|s| |s m e Hm]; try discriminate; reflexivity. Qed.
Lemma plus_inf_r x : nneg x -> Bplus mode_NE x inf64 = inf64.
Proof. intros H. apply nneg_cases in H. destruct H as [->|(a & (Fy & _) & _)]; [reflexivity|]. destruct x as [s|s| |s m e Hm]; try discriminate; reflexivity. Qed.
Lemma plus_nneg x y : nneg x -> nneg y -> nneg (Bplus mode_NE x y).
Proof.
  intros Hx Hy. pose proof Hx as Hx'. pose proof Hy as Hy'. apply nneg_cases in Hx'. destruct Hx' as [->|(a & Ha & Pa)]; [rewrite plus_inf_l by auto; reflexivity|].
  apply nneg_cases in Hy'. destruct Hy' as [->|(b & Hb & Pb)]; [rewrite plus_inf_r by auto; reflexivity|].
  destruct (plus_fin x y a b Ha Hb Pa Pb) as [(_ & ->)|(_ & H)]; [reflexivity|]. apply (nneg_fin _ _ H). apply (rnd_ge_fmt 0 _ fmt_0). lra.
Qed.
Lemma plus_mono x y x' y' : nneg x -> nneg y -> nneg x' -> nneg y' -> le64 x x' -> le64 y y' -> le64 (Bplus mode_NE x y) (Bplus mode_NE x' y').
Proof.
  intros Hx Hy Hx' Hy' L1 L2. apply (le_cases x x' Hx Hx') in L1. destruct L1 as [->|(a & a' & Ha & Ha' & La)]; [rewrite plus_inf_l by auto; apply le_inf; now apply plus_nneg|].
  apply (le_cases y y' Hy Hy') in L2. destruct L2 as [->|(b & b' & Hb & Hb' & Lb)]; [rewrite plus_inf_r by auto; apply le_inf; now apply plus_nneg|].
  assert (Pa : 0 <= a) by (now apply (le_fin _ x 0 a zero64)). assert (Pb : 0 <= b) by (now apply (le_fin _ y 0 b zero64)).
  destruct (plus_fin x' y' a' b' Ha' Hb' ltac:(lra) ltac:(lra)) as [(_ & ->)|(B & H)]; [apply le_inf; now apply plus_nneg|].
  assert (Q : rnd (a + b) <= rnd (a' + b')) by (apply rnd_le; lra).
  destruct (plus_fin x y a b Ha Hb Pa Pb) as [(B' & _)|(_ & H')]; [lra|]. now apply (le_fin _ _ _ _ H' H).
Qed.
Lemma plus_ge x y : nneg x -> nneg y -> le64 x (Bplus mode_NE x y).
Proof.
  intros Hx Hy. pose proof Hx as Hx'. pose proof Hy as Hy'. apply nneg_cases in Hx'. destruct Hx' as [->|(a & Ha & Pa)]; [rewrite plus_inf_l by auto; reflexivity|].
  apply nneg_cases in Hy'. destruct Hy' as [->|(b & Hb & Pb)]; [rewrite plus_inf_r by auto; now apply le_inf|].
  destruct (plus_fin x y a b Ha Hb Pa Pb) as [(_ & ->)|(_ & H)]; [now apply le_inf|]. apply (le_fin _ _ _ _ Ha H). apply (rnd_ge_fmt a); [exact (isf_fmt _ _ Ha)|lra].
Qed.
Lemma one_mult_inf : Bmult mode_NE (ofZ64 1) inf64 = inf64.
Proof. apply B2SF_inj. vm_compute. reflexivity. Qed.
Lemma one_mult_nneg x : nneg x -> nneg (Bmult mode_NE (ofZ64 1) x).
Proof. intros H. apply nneg_cases in H. destruct H as [->|(a & Ha & Pa)]; [rewrite one_mult_inf; reflexivity|]. apply (nneg_fin _ a); [now apply one_mul64|exact Pa]. Qed.

Lemma sum_nneg {A} (g : A -> b64) (l : list A) : (forall x, In x l -> nneg (g x)) -> forall a, nneg a -> nneg (fold_left (Bplus mode_NE) (map (fun x => Bmult mode_NE (ofZ64 1) (g x)) l) a).
Proof.
  induction l as [|x l IH]; intros H a Ha; [exact Ha|]. cbn [map fold_left]. apply IH; [intros; apply H; now right|]. apply plus_nneg; [exact Ha|]. apply one_mult_nneg, H. now left.
Qed.
(** The sum over a part is at most the sum over the whole. *)
Lemma sum_mono {A} (g : A -> b64) (p q : A -> bool) (l : list A) : (forall x, In x l -> nneg (g x)) -> (forall x, In x l -> p x = true -> q x = true) ->
  forall a a', nneg a -> nneg a' -> le64 a a' ->
    le64 (fold_left (Bplus mode_NE) (map (fun x => Bmult mode_NE (ofZ64 1) (g x)) (filter p l)) a) (fold_left (Bplus mode_NE) (map (fun x => Bmult mode_NE (ofZ64 1) (g x)) (filter q l)) a').
Proof.
  induction l as [|x l IH]; intros H PQ a a' Ha Ha' L; [exact L|]. cbn [filter]. pose proof (one_mult_nneg _ (H x (or_introl eq_refl))) as Hx.
  assert (IH' : forall a a', nneg a -> nneg a' -> le64 a a' -> le64 (fold_left (Bplus mode_NE) (map (fun x => Bmult mode_NE (ofZ64 1) (g x)) (filter p l)) a) (fold_left (Bplus mode_NE) (map (fun x => Bmult mode_NE (ofZ64 1) (g x)) (filter q l)) a')).
  { apply IH; [intros; apply H; now right|intros y Hy; apply PQ; now right]. }
  pose proof (PQ x (or_introl eq_refl)) as PQx. destruct (p x); [rewrite PQx by reflexivity|destruct (q x)]; cbn [map fold_left].
  - apply IH'; [now apply plus_nneg|now apply plus_nneg|]. apply plus_mono; auto. now apply le_refl64.
  - apply IH'; [exact Ha|now apply plus_nneg|]. apply (le_trans64 a a'); auto; [now apply plus_nneg|now apply plus_ge].
  - now apply IH'.
Qed.
(** Dividing by the same positive double does not change which of two results is larger. *)
Lemma div_mono x y m a b r : isf x a -> isf y b -> isf m r -> 0 < r -> a <= b -> forall u v, isf (Bdiv mode_NE x m) u -> isf (Bdiv mode_NE y m) v -> u <= v.
Proof.
  intros [Fx Ex] [Fy Ey] [Fm Em] Pr L u v Hu Hv. assert (N : B2R m <> 0) by (change (B2R m) with (B2R64 m); lra).
  assert (D : forall z c w, is_finite z = true -> B2R64 z = c -> isf (Bdiv mode_NE z m) w -> w = rnd (c / r)).
  { clear - Em N. intros z c w Fz Ez (Fw & Ew). pose proof (Bdiv_correct 53 1024 _ _ mode_NE z m N) as C. destruct (Rlt_bool _ _).
    - destruct C as (C1 & _). rewrite <- Ew, <- Ez, <- Em. exact C1.
    - exfalso. destruct (Bdiv mode_NE z m); try discriminate Fw; unfold binary_overflow in C; cbn in C; discriminate C. }
  rewrite (D x a u Fx Ex Hu), (D y b v Fy Ey Hv). apply rnd_le. unfold Rdiv. apply Rmult_le_compat_r; [left; now apply Rinv_0_lt_compat|exact L].
Qed.
