(** C100, second part: UnboundedSums can report false ties in IEEE doubles. *)
From Coq Require Import Reals Lra.
From Flocq Require Import Core IEEE754.BinarySingleNaN.
From Verif Require Import Base Num Sparse Spec SpecAlg Dataset DatasetProofs DatasetRep Iterators Ranking Algorithms Driver Rounds
  AlgRep PropsData PropsIter PropsRun PropsAlg PropsConv PropsCopies Float Mono64 PropsFloat PropsAvlog64 PropsUsums64 PropsMore64.

(** Six sources agree about six variables; source 6 makes the claims 6=0 and 7=0, source 7 only 7=0. *)
Definition crowd : list (nat * nat * nat) :=
  flat_map (fun s => map (fun v => (s, v, 0)%nat) (seq 0 6)) (seq 0 6) ++ [(6, 6, 0); (6, 7, 0); (7, 7, 0)]%nat.

Section Ties.
  Variable L : libm.
  Notation F := (B64 L).
  Notation data := (dataset nat nat nat F).
  Notation claim := (nat * nat)%type.
  Notation z0 := (ofZ64 0).

  (* scores that depend on the group only *)
  Definition onS (a x y : b64) (s : nat) : b64 := if (s <? 6)%nat then a else if (s =? 6)%nat then x else y.
  Definition onC (a x y : b64) (c : claim) : b64 := onS a x y (fst c).
  Definition one_times (x : b64) : b64 := Bmult mode_NE (ofZ64 1) x.
  Definition sum6 (a : b64) : b64 := let w := one_times a in
    Bplus mode_NE (Bplus mode_NE (Bplus mode_NE (Bplus mode_NE (Bplus mode_NE (Bplus mode_NE z0 w) w) w) w) w) w.
  Definition sum1 (x : b64) : b64 := Bplus mode_NE z0 (one_times x).
  Definition sum2 (x y : b64) : b64 := Bplus mode_NE (sum1 x) (one_times y).

  Lemma src : sources crowd = [0; 1; 2; 3; 4; 5; 6; 7]%nat. Proof. reflexivity. Qed.
  Lemma cls : claims crowd = [(0, 0); (1, 0); (2, 0); (3, 0); (4, 0); (5, 0); (6, 0); (7, 0)]%nat. Proof. reflexivity. Qed.
  Ltac same := cbv [onC onS fst snd Nat.ltb Nat.leb Nat.eqb map fold_left sum6 sum1 sum2 one_times]; reflexivity.
  Lemma tb_crowd a x y s : In s (sources crowd) -> tb64 crowd (onC a x y) s = onS (sum6 a) (sum2 x y) (sum1 y) s.
  Proof.
    rewrite src. unfold tb64. intros H.
    assert (C : forall s, (s < 6)%nat -> claims_of crowd s = [(0, 0); (1, 0); (2, 0); (3, 0); (4, 0); (5, 0)]%nat) by (intros v Hv; do 6 (destruct v as [|v]; [reflexivity|]); lia).
    repeat destruct H as [<-|H]; try destruct H; try (rewrite C by lia; same).
    - change (claims_of crowd 6) with [(6, 0); (7, 0)]%nat. same.
    - change (claims_of crowd 7) with [(7, 0)]%nat. same.
  Qed.
  Lemma tt_crowd a x y c : In c (claims crowd) -> tt64 crowd (onS a x y) c = onC (sum6 a) (sum1 x) (sum2 x y) c.
  Proof.
    rewrite cls. unfold tt64. intros H.
    assert (C : forall v, (v < 6)%nat -> supporters crowd (v, 0)%nat = [0; 1; 2; 3; 4; 5]%nat) by (intros v Hv; do 6 (destruct v as [|v]; [reflexivity|]); lia).
    repeat destruct H as [<-|H]; try destruct H; try (rewrite C by lia; same).
    - change (supporters crowd (6, 0)%nat) with [6]%nat. same.
    - change (supporters crowd (7, 0)%nat) with [6; 7]%nat. same.
  Qed.
  (* is the largest of the scores above 1000? *)
  Definition big (a x y : b64) : bool :=
    match npmax (F:=F) [a; a; a; a; a; a; x; y] with Some m => Bltb (ofZ64 1000) m | None => false end.
  Definition scale (b : bool) (x : b64) : b64 := if b then Bdiv mode_NE x (ofZ64 1000) else x.
  Lemma scale_on b a x y s : scale b (onS a x y s) = onS (scale b a) (scale b x) (scale b y) s.
  Proof. unfold onS. destruct (s <? 6)%nat, (s =? 6)%nat; reflexivity. Qed.
  Lemma rescale_S a x y : rescale1 (F:=F) (map (onS a x y) (sources crowd)) = Some (map (onS (scale (big a x y) a) (scale (big a x y) x) (scale (big a x y) y)) (sources crowd)).
  Proof.
    rewrite src. unfold rescale1, big. change (map (onS a x y) [0; 1; 2; 3; 4; 5; 6; 7]%nat) with [a; a; a; a; a; a; x; y]. destruct (npmax (F:=F) [a; a; a; a; a; a; x; y]) as [m|] eqn:E; [|discriminate].
    change (n_ltb (n:=F) (n_ofZ 1000) m) with (Bltb (ofZ64 1000) m). destruct (Bltb (ofZ64 1000) m); reflexivity.
  Qed.
  Lemma rescale_C a x y : rescale1 (F:=F) (map (onC a x y) (claims crowd)) = Some (map (onC (scale (big a x y) a) (scale (big a x y) x) (scale (big a x y) y)) (claims crowd)).
  Proof.
    rewrite cls. unfold rescale1, big. change (map (onC a x y) [(0, 0); (1, 0); (2, 0); (3, 0); (4, 0); (5, 0); (6, 0); (7, 0)]%nat) with [a; a; a; a; a; a; x; y]. destruct (npmax (F:=F) [a; a; a; a; a; a; x; y]) as [m|] eqn:E; [|discriminate].
    change (n_ltb (n:=F) (n_ofZ 1000) m) with (Bltb (ofZ64 1000) m). destruct (Bltb (ofZ64 1000) m); reflexivity.
  Qed.

  (** one round *)
  Definition trusts (g : b64 * b64 * b64) : b64 * b64 * b64 := let '(a, x, y) := g in (sum6 a, sum2 x y, sum1 y).
  Definition beliefs (u : b64 * b64 * b64) : b64 * b64 * b64 := let '(a, x, y) := u in (sum6 a, sum1 x, sum2 x y).
  Definition scaled3 (u : b64 * b64 * b64) : b64 * b64 * b64 := let '(a, x, y) := u in let b := big a x y in (scale b a, scale b x, scale b y).
  Definition vS (u : b64 * b64 * b64) : vec F := map (onS (fst (fst u)) (snd (fst u)) (snd u)) (sources crowd).
  Definition vC (u : b64 * b64 * b64) : vec F := map (onC (fst (fst u)) (snd (fst u)) (snd u)) (claims crowd).
  Definition step (g : b64 * b64 * b64) : b64 * b64 * b64 := scaled3 (beliefs (trusts g)).
  Fixpoint steps (k : nat) (g : b64 * b64 * b64) : b64 * b64 * b64 := match k with O => g | Datatypes.S k => step (steps k g) end.
  Definition half : b64 := Bdiv mode_NE (ofZ64 1) (ofZ64 2).
  Definition start : b64 * b64 * b64 := (half, half, half).
  (* the same with the proof terms of the doubles dropped after every round *)
  Definition fresh (x : b64) : b64 := match Bool.bool_dec (SpecFloat.valid_binary 53 1024 (B2SF x)) true with Coq.Init.Specif.left H => SF2B _ H | Coq.Init.Specif.right _ => x end.
  Lemma fresh_eq x : fresh x = x.
  Proof. unfold fresh. destruct (Bool.bool_dec _ _) as [H|]; [|reflexivity]. apply SF2B_B2SF. Qed.
  Fixpoint go (k : nat) (g : b64 * b64 * b64) : b64 * b64 * b64 := match k with O => g | Datatypes.S k => let '(a, x, y) := step g in go k (fresh a, fresh x, fresh y) end.
  Lemma go_steps k g : go k g = steps k g.
  Proof.
    assert (C : forall k g, steps k (step g) = step (steps k g)) by (clear; induction k as [|k IH]; intros g; [reflexivity|]; cbn [steps]; now rewrite IH).
    revert g. induction k as [|k IH]; intros g; [reflexivity|]. cbn [go steps]. destruct (step g) as [[a x] y] eqn:E. rewrite !fresh_eq, IH, <- E. apply C.
  Qed.
  Definition gone (g : b64 * b64 * b64) : bool := match g with (a, B754_zero false, B754_zero false) => Bleb (ofZ64 1) a | _ => false end.
  Lemma gone_300 : gone (go 300 start) = true.
  Proof. vm_cast_no_check (eq_refl true). Qed.
  (** From there on the small group stays at zero and the other scores at one or more. *)
  Definition faded (g : b64 * b64 * b64) : Prop := exists a, g = (a, z0, z0) /\ le64 (ofZ64 1) a.
  Lemma gone_faded g : gone g = true -> faded g.
  Proof.
    destruct g as [[a x] y]. unfold gone. intros H. destruct x as [[|]|?| |? ? ? ?]; try discriminate H. destruct y as [[|]|?| |? ? ? ?]; try discriminate H. exists a. split; [|exact H].
    f_equal.
  Qed.
  Lemma nneg_one a : le64 (ofZ64 1) a -> nneg a.
  Proof.
    intros H. destruct (is_finite a) eqn:Fa.
    - apply (nneg_fin a (B2R64 a)); [now split|]. assert (Q : (1 <= B2R64 a)%R) by (apply (le_fin (ofZ64 1) a 1 (B2R64 a) one64); [now split|exact H]). lra.
    - destruct a as [s|[|]| |s m e Hm]; try discriminate Fa; try discriminate H; reflexivity.
  Qed.
  Lemma one_nneg : nneg (ofZ64 1). Proof. reflexivity. Qed.
  Lemma times_one a : le64 (ofZ64 1) a -> le64 (ofZ64 1) (one_times a).
  Proof.
    intros H. pose proof (nneg_one a H) as N. apply nneg_cases in N. unfold one_times. destruct N as [->|(r & Hr & Pr)]; [rewrite one_mult_inf; reflexivity|].
    apply (le_fin _ _ 1 r one64); [now apply one_mul64|]. now apply (le_fin (ofZ64 1) a 1 r one64).
  Qed.
  Lemma plus_one x w : nneg x -> le64 (ofZ64 1) w -> nneg w -> le64 (ofZ64 1) (Bplus mode_NE x w).
  Proof.
    intros Hx H Hw. apply (le_trans64 _ (Bplus mode_NE z0 (ofZ64 1))); [exact one_nneg|reflexivity|now apply plus_nneg|reflexivity|]. apply plus_mono; auto; reflexivity.
  Qed.
  Lemma sum6_one a : le64 (ofZ64 1) a -> le64 (ofZ64 1) (sum6 a).
  Proof.
    intros H. unfold sum6. cbv zeta. pose proof (times_one a H) as W. pose proof (nneg_one _ W) as N. apply plus_one; auto. repeat apply plus_nneg; auto. reflexivity.
  Qed.
  Lemma self_eqb (a : b64) : nneg a -> Beqb a a = true /\ Bltb a a = false.
  Proof. intros H. pose proof (le_refl64 a H) as Q. pose proof (le_not_lt a a Q) as Q'. split; [|exact Q']. revert Q Q'. unfold le64, Bleb, SpecFloat.SFleb, Bltb, SpecFloat.SFltb, Beqb, SpecFloat.SFeqb. destruct (SpecFloat.SFcompare _ _) as [[| |]|]; congruence. Qed.
  Lemma big_max a : nneg a -> big a z0 z0 = Bltb (ofZ64 1000) a.
  Proof.
    intros H. destruct (self_eqb a H) as (E1 & E2). pose proof (le_not_lt z0 a H) as E3. set (stepm := fun m y : b64 => if Beqb m m then (if Beqb y y then (if Bltb m y then y else m) else y) else m).
    assert (A : stepm a a = a) by (unfold stepm; now rewrite E1, E2). assert (B : stepm a z0 = a) by (unfold stepm; rewrite E1; change (Beqb z0 z0) with true; cbv iota; now rewrite E3).
    change (big a z0 z0) with (Bltb (ofZ64 1000) (stepm (stepm (stepm (stepm (stepm (stepm (stepm a a) a) a) a) a) z0) z0)). now rewrite !A, !B.
  Qed.
  Lemma zero_sums : sum1 z0 = z0 /\ sum2 z0 z0 = z0.
  Proof. split; apply B2SF_inj; vm_compute; reflexivity. Qed.
  Lemma zero_scale b : scale b z0 = z0.
  Proof. destruct b; [|reflexivity]. apply B2SF_inj; vm_compute; reflexivity. Qed.
  Lemma faded_scaled g : faded g -> faded (scaled3 g).
  Proof.
    intros (a & -> & H). pose proof (nneg_one a H) as N. cbn [scaled3]. rewrite (big_max a N), !zero_scale. exists (scale (Bltb (ofZ64 1000) a) a). split; [reflexivity|].
    unfold scale. destruct (Bltb (ofZ64 1000) a) eqn:E; [|exact H].
    apply (le_trans64 _ (Bdiv mode_NE (ofZ64 1000) (ofZ64 1000))); [exact one_nneg|reflexivity|now apply thousandth|reflexivity|]. apply thousandth_mono; [reflexivity|exact N|].
    revert E. unfold le64, Bleb, SpecFloat.SFleb, Bltb, SpecFloat.SFltb. destruct (SpecFloat.SFcompare _ _) as [[| |]|]; congruence.
  Qed.
  Lemma faded_trusts g : faded g -> faded (trusts g).
  Proof. intros (a & -> & H). cbn [trusts]. destruct zero_sums as (E1 & E2). rewrite E1, E2. exists (sum6 a). split; [reflexivity|now apply sum6_one]. Qed.
  Lemma faded_beliefs g : faded g -> faded (beliefs g).
  Proof. intros (a & -> & H). cbn [beliefs]. destruct zero_sums as (E1 & E2). rewrite E1, E2. exists (sum6 a). split; [reflexivity|now apply sum6_one]. Qed.
  Lemma faded_steps k : (300 <= k)%nat -> faded (steps k start).
  Proof.
    induction 1 as [|k Hk IH]; [rewrite <- go_steps; exact (gone_faded _ gone_300)|]. cbn [steps]. unfold step. now apply faded_scaled, faded_beliefs, faded_trusts.
  Qed.
  (** the ranks of such scores *)
  Definition ranks : vec F := map (onS (ofZ64 1) z0 z0) (sources crowd).
  Lemma nnum_one a : le64 (ofZ64 1) a -> nnum a.
  Proof.
    intros H. pose proof (nneg_one a H) as N. apply nneg_cases in N. destruct N as [->|(r & Hr & Pr)]; [split; reflexivity|].
    assert (Q : (1 <= r)%R) by (now apply (le_fin (ofZ64 1) a 1 r one64)). destruct Hr as (Fa & Ea). split; [destruct a; try discriminate; reflexivity|].
    destruct a as [s|s| |s m e Hm]; try discriminate. destruct s; [|reflexivity]. exfalso. unfold B2R64 in Ea. cbn [B2R] in Ea. assert (F2R (Float radix2 (Z.neg m) e) < 0)%R by (apply F2R_lt_0; cbn; lia). cbn in Ea. lra.
  Qed.
  Lemma faded_ranks g : faded g -> get_ranking_vector (F:=F) (vS g) = Some ranks.
  Proof.
    intros (a & -> & H). unfold vS. cbn [fst snd]. pose proof (nneg_one a H) as N.
    assert (Lt : Bltb z0 a = true).
    { apply nneg_cases in N. destruct N as [->|(r & Hr & Pr)]; [reflexivity|]. assert (Q : (1 <= r)%R) by (now apply (le_fin (ofZ64 1) a 1 r one64)). destruct Hr as (Fa & Ea). rewrite (Bltb_correct 53 1024 z0 a eq_refl Fa). apply Rlt_bool_true. change (B2R z0) with (B2R64 z0). change (B2R a) with (B2R64 a). destruct zero64 as (_ & ->). lra. }
    assert (G : forall s, nnum (onS a z0 z0 s)) by (intros s; unfold onS; destruct (s <? 6)%nat; [now apply nnum_one|destruct (s =? 6)%nat; exact zero_nnum]).
    destruct (ranked L (onS a z0 z0 : nat -> F) (sources crowd) _ (fun s _ => G s)) as (rk & E & D). refine (eq_trans E _). unfold ranks. apply (f_equal (@Some (vec F))). apply map_ext_in. intros s Hs.
    set (good := fun x : b64 => is_nan x = false).
    assert (AG : forall y, In y (map (onS a z0 z0) (sources crowd)) -> good y) by (intros y Hy; apply in_map_iff in Hy; destruct Hy as (z & <- & Hz); apply (G z)).
    assert (Va : forall y, In y (map (onS a z0 z0) (sources crowd)) -> y = a \/ y = z0) by (intros y Hy; apply in_map_iff in Hy; destruct Hy as (z & <- & _); unfold onS; destruct (z <? 6)%nat; [now left|destruct (z =? 6)%nat; now right]).
    assert (Zin : In z0 (map (onS a z0 z0) (sources crowd))) by (apply in_map_iff; exists 7%nat; split; [reflexivity|rewrite src; cbn; tauto]).
    assert (R : rk s = if (s <? 6)%nat then 1%nat else 0%nat).
    { apply (distinct_below_unique (F:=F) (good := good) (map (onS a z0 z0) (sources crowd)) (onS a z0 z0 s)); auto. unfold onS at 2. destruct (s <? 6)%nat.
      - exists [z0]. split; [reflexivity|]. split; [repeat constructor|]. split.
        + intros y [<-|[]]. split; [exact Zin|exact Lt].
        + intros y Hy Hl. destruct (Va y Hy) as [->| ->]; [|exists z0; split; [now left|reflexivity]]. destruct (self_eqb a N) as (_ & Q). change (Bltb a a = true) in Hl. congruence.
      - assert (Z : (if (s =? 6)%nat then z0 else z0) = z0) by (destruct (s =? 6)%nat; reflexivity). rewrite Z. exists []. split; [reflexivity|]. split; [constructor|]. split; [intros y []|].
        intros y Hy Hl. destruct (Va y Hy) as [->| ->]; [|discriminate Hl]. pose proof (le_not_lt z0 a N) as Q. change (Bltb a z0 = true) in Hl. congruence. }
    rewrite R. unfold onS. destruct (s <? 6)%nat; [reflexivity|]. destruct (s =? 6)%nat; reflexivity.
  Qed.
  Lemma ranks_same : vall_eq (F:=F) ranks ranks = true. Proof. reflexivity. Qed.

  Variable d : data.
  Hypothesis Hb : build (F:=F) false None crowd = Ok d.
  Lemma one_round (t : vec F) g : round (F:=F) UnboundedSums d (t, vC g) = UNext (F:=F) t (vS (trusts g)) (vS (scaled3 (trusts g)), vC (scaled3 (beliefs (trusts g)))).
  Proof.
    destruct g as [[a x] y]. cbn [round usums_upd]. unfold vC at 1 2 3. cbn [fst snd]. rewrite (sc64 L false None crowd d Hb).
    rewrite (map_ext_in _ _ _ (tb_crowd a x y)). rewrite (scT64 L false None crowd d Hb), (map_ext_in _ _ _ (tt_crowd (sum6 a) (sum2 x y) (sum1 y))).
    rewrite rescale_S, rescale_C. cbv [vS vC scaled3 trusts beliefs fst snd]. reflexivity.
  Qed.
  Lemma init_crowd : init (F:=F) UnboundedSums FIXED d = Some (vzeros (F:=F) 8, vC start).
  Proof.
    cbn [init prior_beliefs]. rewrite (rep_ns _ _ _ (build_rep _ _ _ _ Hb)), (rep_nc _ _ _ (build_rep _ _ _ _ Hb)). reflexivity.
  Qed.
  Notation x0 := (vzeros (F:=F) 8, vC start).
  Lemma scores_crowd k : scores (F:=F) UnboundedSums d x0 (Datatypes.S k) = (vS (scaled3 (trusts (steps k start))), vC (steps (Datatypes.S k) start)).
  Proof.
    induction k as [|k IH]; [cbn [scores]; rewrite one_round; reflexivity|].
    assert (Q : scores (F:=F) UnboundedSums d x0 (Datatypes.S (Datatypes.S k)) = match round (F:=F) UnboundedSums d (scores (F:=F) UnboundedSums d x0 (Datatypes.S k)) with UNext _ _ y => y | _ => scores (F:=F) UnboundedSums d x0 (Datatypes.S k) end) by reflexivity.
    rewrite Q, IH, one_round. reflexivity.
  Qed.
  Lemma cmp_crowd k : stops (F:=F) UnboundedSums d x0 (Datatypes.S k) = false /\ cmp1 (F:=F) UnboundedSums d x0 (Datatypes.S k) = vS (scaled3 (trusts (steps k start))) /\
    cmp2 (F:=F) UnboundedSums d x0 (Datatypes.S k) = vS (trusts (steps (Datatypes.S k) start)).
  Proof. unfold stops, cmp1, cmp2. rewrite scores_crowd, one_round. auto. Qed.

  (** the loop: from round 301 on every comparison counts *)
  Notation loop := (it_loop (F:=F) (cmp1 (F:=F) UnboundedSums d x0) (cmp2 (F:=F) UnboundedSums d x0) (stops (F:=F) UnboundedSums d x0)).
  Lemma loop_late t : forall fuel n c k, (301 <= k)%nat -> (Z.to_nat t - c < fuel)%nat -> exists k' n' c', (k <= k')%nat /\ loop fuel (IOrd t n c) k = ((Ok tt, k'), IOrd t n' c').
  Proof.
    induction fuel as [|m IH]; intros n c k Hk Hf; [lia|]. cbn [it_loop finished]. destruct (t <=? Z.of_nat c)%Z eqn:Et; [exists k, n, c; split; [lia|reflexivity]|]. apply Z.leb_gt in Et.
    destruct k as [|k]; [lia|]. destruct (cmp_crowd k) as (-> & -> & ->). cbn [compare].
    rewrite (faded_ranks (scaled3 (trusts (steps k start)))) by (apply faded_scaled, faded_trusts, faded_steps; lia). rewrite (faded_ranks (trusts (steps (Datatypes.S k) start))) by (apply faded_trusts, faded_steps; lia).
    rewrite ranks_same. destruct (IH (Datatypes.S n) (Datatypes.S c) (Datatypes.S (Datatypes.S k)) ltac:(lia) ltac:(lia)) as (k' & n' & c' & H1 & H2). exists k', n', c'. split; [lia|exact H2].
  Qed.
  Lemma loop_any t : (301 <= t)%Z -> forall j fuel n c k, (c <= k)%nat -> (k + j = 301)%nat -> (j + Z.to_nat t + 1 <= fuel)%nat -> exists k' n' c', (301 <= k')%nat /\ loop fuel (IOrd t n c) k = ((Ok tt, k'), IOrd t n' c').
  Proof.
    intros Ht. induction j as [|j IH]; intros fuel n c k Hc Hk Hf.
    - destruct (loop_late t fuel n c k ltac:(lia) ltac:(lia)) as (k' & n' & c' & H1 & H2). exists k', n', c'. split; [lia|exact H2].
    - destruct fuel as [|m]; [lia|]. cbn [it_loop finished]. destruct (t <=? Z.of_nat c)%Z eqn:Et; [apply Z.leb_le in Et; lia|].
      assert (S1 : (Z.of_nat (length (sources crowd)) <= 2 ^ 53)%Z) by (vm_compute; discriminate). assert (S2 : (Z.of_nat (length (claims crowd)) <= 2 ^ 53)%Z) by (vm_compute; discriminate). assert (NE : crowd <> []) by discriminate.
      destruct (clean_round L false None crowd d Hb NE _ (clean_scores L false None crowd d Hb S1 S2 NE FIXED x0 init_crowd k)) as (u & v & y & E & _ & Nu & Nv).
      assert (E0 : stops (F:=F) UnboundedSums d x0 k = false) by (unfold stops; now rewrite E).
      assert (E1 : cmp1 (F:=F) UnboundedSums d x0 k = map u (sources crowd)) by (unfold cmp1; now rewrite E).
      assert (E2 : cmp2 (F:=F) UnboundedSums d x0 k = map v (sources crowd)) by (unfold cmp2; now rewrite E).
      rewrite E0, E1, E2. cbn [compare]. destruct (ranked L u (sources crowd) _ Nu) as (rk1 & -> & _). destruct (ranked L v (sources crowd) _ Nv) as (rk2 & -> & _).
      apply IH; [destruct (vall_eq _ _); lia|lia|lia].
  Qed.
  Lemma final_tie n c t k : (301 <= k)%nat -> exists rb, final (F:=F) UnboundedSums (IOrd t n c) (scores (F:=F) UnboundedSums d x0 k) = Ok (ranks, rb).
  Proof.
    intros Hk. assert (S1 : (Z.of_nat (length (sources crowd)) <= 2 ^ 53)%Z) by (vm_compute; discriminate). assert (S2 : (Z.of_nat (length (claims crowd)) <= 2 ^ 53)%Z) by (vm_compute; discriminate). assert (NE : crowd <> []) by discriminate.
    destruct (clean_scores L false None crowd d Hb S1 S2 NE FIXED x0 init_crowd k) as (u & g & E & _ & Ng). destruct (ranked L g (claims crowd) _ Ng) as (rk & Er & _).
    destruct k as [|k]; [lia|].
    assert (Q1 : (map u (sources crowd) : vec F) = vS (scaled3 (trusts (steps k start)))) by exact (f_equal fst (eq_trans (eq_sym E) (scores_crowd k))).
    exists (map (fun x => ofZ64 (Z.of_nat (rk x))) (claims crowd)). rewrite E. cbn [final fst snd]. 
    assert (R1 : get_ranking_vector (F:=F) (map (u : nat -> F) (sources crowd)) = Some ranks) by (refine (eq_trans (f_equal (get_ranking_vector (F:=F)) Q1) _); apply faded_ranks, faded_scaled, faded_trusts, faded_steps; lia).
    change (match get_ranking_vector (F:=F) (map (u : nat -> F) (sources crowd)), get_ranking_vector (F:=F) (map (g : claim -> F) (claims crowd)) with Some t, Some b => Ok (t, b) | _, _ => Err KeyErr end =
          Ok (ranks, map (fun x => ofZ64 (Z.of_nat (rk x))) (claims crowd))). rewrite R1, Er. reflexivity.
  Qed.
End Ties.

(** UnboundedSums with the default prior and any threshold above 300 on the crowd.  In doubles the scores of sources 6 and 7 underflow to zero
    beside those of the others, and the two sources tie at rank 0; exactly, source 6 has a higher rank than source 7. *)
Theorem C100_false_ties (L : libm) t : (301 <= t)%Z ->
  (exists d : dataset nat nat nat (B64 L), build (F:=B64 L) false None crowd = Ok d /\ exists N, forall clock fuel n c lg, (N <= fuel)%nat ->
    exists r u w, fst (run (F:=B64 L) clock fuel (AObj UnboundedSums FIXED (IOrd t n c) lg) d) = Ok r /\ trust_of r 6%nat = Some u /\ trust_of r 7%nat = Some w /\ Beqb u (ofZ64 0) = true /\ Beqb w (ofZ64 0) = true) /\
  (exists d : dataset nat nat nat XR, build (F:=XR) false None crowd = Ok d /\ exists N, forall clock fuel n c lg, (N <= fuel)%nat ->
    exists r u w, fst (run (F:=XR) clock fuel (AObj UnboundedSums FIXED (IOrd t n c) lg) d) = Ok r /\ trust_of r 6%nat = Some (Fin u) /\ trust_of r 7%nat = Some (Fin w) /\ (w < u)%R).
Proof.
  intros Ht. assert (NE : crowd <> []) by discriminate. split.
  - assert (B : exists d : dataset nat nat nat (B64 L), build (F:=B64 L) false None crowd = Ok d).
    { assert (ND : NoDup (sv_pairs crowd)) by (apply CopiesExamples.by_distinct; reflexivity).
      destruct (build_strict (F:=B64 L) None crowd) as [(_ & _ & d & E & _)|[(_ & N & _)|(s & x & H & _)]]; [exists d; exact E| |exfalso; exact (first_repeat_not_NoDup _ _ _ H ND)].
      exfalso. apply N. intros c c' q _ _ H. unfold imp_val in H. destruct (_ && _)%bool; discriminate. }
    destruct B as (d & E0). exists d. split; [exact E0|]. exists (302 + Z.to_nat t)%nat. intros clock fuel n c lg Hf.
    rewrite (run_char (F:=B64 L) clock crowd None d (build_rep _ _ _ _ E0) NE), (init_crowd L d E0). cbn [reset].
    destruct (loop_any L d E0 t Ht 301 fuel 0 0 0 ltac:(lia) ltac:(lia) ltac:(lia)) as (k & n' & c' & Hk & El). rewrite El. destruct (final_tie L d E0 n' c' t k Hk) as (rb & Ef). rewrite Ef. cbn [fst].
    exists (Result (tdict (F:=B64 L) crowd (ranks L)) (bdict (F:=B64 L) crowd rb) (n_sub (n:=B64 L) (clock 1) (clock 0)) (Some k)), (ofZ64 0), (ofZ64 0). split; [reflexivity|]. repeat split; reflexivity.
  - destruct (CopiesExamples.builds crowd) as (d & E0); [apply CopiesExamples.by_distinct; reflexivity|]. exists d. split; [exact E0|].
    destruct (C59_terminates false None crowd d E0 UnboundedSums FIXED (or_intror (or_introl eq_refl)) ltac:(discriminate) ltac:(discriminate)) as [N K].
    exists (N + Z.to_nat t + 1)%nat. intros clock fuel n c lg Hf.
    destruct (K clock fuel t n c lg ltac:(lia)) as (r & o' & k & Er & Ek & K1 & _).
    destruct (C100_more_claims_higher false None crowd d E0 clock fuel FIXED t n c lg r o' k 7%nat 6%nat (6, 0)%nat Er Ek) as (w & u & Ew & Eu & Lt).
    + lia.
    + apply mem_In; reflexivity.
    + apply mem_In; reflexivity.
    + intros [x w] Hw. apply says_true, first_claim_In in Hw. cbn [fst snd] in Hw. unfold crowd in Hw. apply in_app_iff in Hw. destruct Hw as [Hw|Hw].
      * exfalso. apply in_flat_map in Hw. destruct Hw as (s & Hs & Hw). apply in_map_iff in Hw. destruct Hw as (v & [= -> _ _] & _). apply in_seq in Hs. lia.
      * destruct Hw as [[=]|[[=]|[[= <- <-]|[]]]]. reflexivity.
    + reflexivity.
    + reflexivity.
    + exists r, u, w. rewrite Er. cbn [fst]. auto.
Qed.
