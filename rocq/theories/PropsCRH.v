(** C70: CRH as an optimisation: what each half of a round minimises, and that the objective never increases.  Exact arithmetic. *)
From Coq Require Import Reals Lra.
From Verif Require Import Base Num Sparse Spec SpecAlg Dataset DatasetProofs DatasetRep Iterators Algorithms Driver Rounds
  AlgRep AlgRounds AlgTF PropsData PropsIter PropsRun PropsAlg.
Local Open Scope R_scope.

(** ** Specification *)
Section Objective.
  Context {S V W : Type} {ES : Eqb S} {EV : Eqb V} {EW : Eqb W}.
  Notation claim := (V * W)%type.
  Variable ts : list (S * V * W).
  Definition vote (s : S) (c : claim) : R := if says ts s c then 1 else 0.
  (** does the source say anything about the variable? *)
  Definition answers (s : S) (x : V) : bool := match first_claim ts s x with Some _ => true | None => false end.
  (** How far a source is from the beliefs: squared differences over all claims about the variables it answers. *)
  Definition deviation (b : claim -> R) (s : S) : R := rsum (fun c => (b c - vote s c) ^ 2) (filter (fun c => answers s (fst c)) (claims ts)).
  (** The objective of CRH: deviations (plus eps), weighted by trust. *)
  Definition objective (eps : R) (x : rscores (S:=S) (V:=V) (W:=W)) : R := rsum (fun s => fst x s * (eps + deviation (snd x) s)) (sources ts).
  (** The constraint on the weights. *)
  Definition weighting (eps : R) (w : S -> R) : Prop := rsum (fun s => exp (eps - w s)) (sources ts) = 1.
  (** every source says something about every variable *)
  Definition complete : Prop := forall s x, In s (sources ts) -> In x (variables ts) -> answers s x = true.

  (** ** Proofs *)
  Lemma rsum_single {A} {EA : Eqb A} (a : A) (g : R) l : NoDup l -> rsum (fun x => if beq x a then g else 0) l = if mem a l then g else 0.
  Proof.
    induction l as [|x l IH]; intros ND; [reflexivity|]. inversion ND as [|? ? Nx ND']; subst. cbn [rsum]. rewrite IH by exact ND'. unfold mem in *. cbn [existsb]. destruct (beq_spec x a) as [->|N].
    - rewrite beq_refl. cbn [orb]. destruct (existsb (beq a) l) eqn:E; [|lra]. exfalso. apply Nx. apply mem_In. exact E.
    - destruct (beq_spec a x) as [->|N']; [congruence|]. cbn [orb]. lra.
  Qed.
  Lemma claims_nodup : NoDup (claims ts). Proof. apply distinct_NoDup. Qed.
  Lemma loss_deviation b s : In s (sources ts) -> crh_loss_spec ts b s = deviation b s.
  Proof.
    intros Hs. unfold crh_loss_spec, deviation, claims_of, rivals. rewrite !rsum_filter.
    transitivity (rsum (fun c => rsum (fun c' => if says ts s c then if beq (fst c) (fst c') then (b c' - (if beq c c' then 1 else 0)) ^ 2 else 0 else 0) (claims ts)) (claims ts)).
    { apply rsum_ext. intros c _. destruct (says ts s c); [apply rsum_filter|symmetry; apply rsum_zero]. }
    rewrite rsum_swap. apply rsum_ext. intros c' Hc'. unfold answers. destruct (first_claim ts s (fst c')) as [w|] eqn:Fc.
    - set (a := (fst c', w)). assert (Sa : says ts s a = true) by (apply says_true; exact Fc). assert (Ia : In a (claims ts)) by (apply claims_In; eauto).
      transitivity (rsum (fun c => if beq c a then (b c' - vote s c') ^ 2 else 0) (claims ts)).
      + apply rsum_ext. intros c Hc. destruct (beq_spec c a) as [->|N].
        * rewrite Sa. unfold a. cbn [fst]. rewrite beq_refl. f_equal. f_equal. unfold vote. destruct (beq_spec (fst c', w) c') as [E|E].
          -- fold a in E. rewrite E in Sa. now rewrite Sa.
          -- destruct (says ts s c') eqn:Sc; [|reflexivity]. exfalso. apply E. apply (says_same_var ts s); [exact Sa|exact Sc|reflexivity].
        * destruct (says ts s c) eqn:Sc; [|reflexivity]. destruct (beq_spec (fst c) (fst c')) as [E|E]; [|reflexivity]. exfalso. apply N. apply (says_same_var ts s); [exact Sc|exact Sa|exact E].
      + rewrite rsum_single by apply claims_nodup. now rewrite (proj2 (mem_In a (claims ts)) Ia).
    - transitivity (rsum (fun _ : claim => 0) (claims ts)); [|apply rsum_zero]. apply rsum_ext. intros c Hc. destruct (says ts s c) eqn:Sc; [|reflexivity]. destruct (beq_spec (fst c) (fst c')) as [E|E]; [|reflexivity].
      apply says_true in Sc. rewrite E, Fc in Sc. discriminate.
  Qed.
  Lemma deviation_nonneg b s : 0 <= deviation b s.
  Proof. apply rsum_nonneg. intros c _. apply pow2_ge_0. Qed.

  (** the weights: Gibbs' inequality *)
  Lemma gibbs (alpha u : S -> R) : (forall s, In s (sources ts) -> 0 < alpha s) -> rsum (fun s => exp (- u s)) (sources ts) = 1 ->
    rsum (fun s => - ln (alpha s / rsum alpha (sources ts)) * alpha s) (sources ts) <= rsum (fun s => u s * alpha s) (sources ts).
  Proof.
    intros Ha Hu. assert (El : sources ts = [] \/ exists s0, In s0 (sources ts)) by (destruct (sources ts) as [|s0 l]; [now left|right; exists s0; now left]).
    destruct El as [El|[s0 H0]]; [rewrite El; cbn; lra|]. set (A := rsum alpha (sources ts)).
    assert (Ap : 0 < A). { apply (rsum_pos alpha (sources ts) s0); [intros s Hs; specialize (Ha s Hs); lra|exact H0|apply Ha, H0]. }
    assert (G : rsum (fun s => - ln (alpha s / A) * alpha s) (sources ts) <= rsum (fun s => u s * alpha s + (A * exp (- u s) - alpha s)) (sources ts)).
    { apply rsum_le. intros s Hs. specialize (Ha s Hs). set (q := exp (- u s)). assert (qp : 0 < q) by apply exp_pos.
      assert (Q : ln (A * q / alpha s) <= A * q / alpha s - 1).
      { assert (P : 0 < A * q / alpha s) by (apply Rdiv_lt_0_compat; [apply Rmult_lt_0_compat; assumption|assumption]). pose proof (exp_ineq1_le (ln (A * q / alpha s))) as H. rewrite exp_ln in H by exact P. lra. }
      assert (E1 : ln (A * q / alpha s) = - u s - ln (alpha s / A)).
      { replace (A * q / alpha s) with (q * / (alpha s / A)) by (field; lra). rewrite ln_mult; [|exact qp|apply Rinv_0_lt_compat, Rdiv_lt_0_compat; assumption]. rewrite ln_Rinv by (apply Rdiv_lt_0_compat; assumption). unfold q. rewrite ln_exp. lra. }
      rewrite E1 in Q. apply (Rmult_le_compat_r (alpha s)) in Q; [|lra]. replace ((A * q / alpha s - 1) * alpha s) with (A * q - alpha s) in Q by (field; lra). lra. }
    rewrite rsum_plus in G. assert (Z : rsum (fun s => A * exp (- u s) - alpha s) (sources ts) = 0).
    { transitivity (rsum (fun s => A * exp (- u s)) (sources ts) - A). 2: rewrite rsum_scal, Hu; lra.
      assert (E : rsum (fun s => A * exp (- u s)) (sources ts) = rsum (fun s => (A * exp (- u s) - alpha s) + alpha s) (sources ts)) by (apply rsum_ext; intros; lra). rewrite rsum_plus in E. unfold A in *. lra. }
    lra.
  Qed.
  Section Step.
    Variable NE : ts <> [].
    Variable eps : R.
    Hypothesis He : 0 < eps.
    Variable x : rscores (S:=S) (V:=V) (W:=W).
    Lemma step_trust s : In s (sources ts) -> fst (crh_step ts eps x) s = eps - ln ((eps + deviation (snd x) s) / rsum (fun s => eps + deviation (snd x) s) (sources ts)).
    Proof.
      intros Hs. unfold crh_step. cbn [fst]. rewrite (loss_deviation (snd x) s Hs). do 3 f_equal. apply rsum_ext. intros s' Hs'. now rewrite loss_deviation.
    Qed.
    Lemma src_exists : exists s, In s (sources ts).
    Proof. destruct ts as [|t l]; [congruence|]. exists (t_src t). apply distinct_In. now left. Qed.
    Lemma step_weighting : weighting eps (fst (crh_step ts eps x)).
    Proof.
      unfold weighting. set (al := fun s => eps + deviation (snd x) s). set (A := rsum al (sources ts)).
      assert (Hal : forall s, In s (sources ts) -> 0 < al s) by (intros s _; unfold al; pose proof (deviation_nonneg (snd x) s); lra).
      assert (Ap : 0 < A) by (destruct src_exists as [s0 H0]; apply (rsum_pos al _ s0); [intros s Hs; specialize (Hal s Hs); lra|exact H0|apply Hal, H0]).
      transitivity (rsum (fun s => al s / A) (sources ts)).
      - apply rsum_ext. intros s Hs. rewrite step_trust by exact Hs. fold al. fold A. change (eps + deviation (snd x) s) with (al s). replace (eps - (eps - ln (al s / A))) with (ln (al s / A)) by lra. apply exp_ln. apply Rdiv_lt_0_compat; [apply Hal, Hs|exact Ap].
      - rewrite rsum_div. fold A. field. lra.
    Qed.
    Lemma step_minimises_trust w : weighting eps w -> objective eps (fst (crh_step ts eps x), snd x) <= objective eps (w, snd x).
    Proof.
      intros Hw. unfold objective. cbn [fst snd]. set (al := fun s => eps + deviation (snd x) s). set (A := rsum al (sources ts)).
      assert (Hal : forall s, In s (sources ts) -> 0 < al s) by (intros s _; unfold al; pose proof (deviation_nonneg (snd x) s); lra).
      pose proof (gibbs al (fun s => w s - eps) Hal) as G. fold A in G. assert (Hu : rsum (fun s => exp (- (w s - eps))) (sources ts) = 1) by (rewrite <- Hw; apply rsum_ext; intros; f_equal; lra). specialize (G Hu).
      apply Rle_trans with (rsum (fun s => - ln (al s / A) * al s) (sources ts) + eps * A).
      - apply Req_le. unfold A at 2. rewrite <- rsum_scal, <- rsum_plus. apply rsum_ext. intros s Hs. rewrite step_trust by exact Hs. fold al. fold A. change (eps + deviation (snd x) s) with (al s). ring.
      - apply Rle_trans with (rsum (fun s => (w s - eps) * al s) (sources ts) + eps * A); [lra|]. apply Req_le. unfold A. rewrite <- rsum_scal, <- rsum_plus. apply rsum_ext. intros s Hs. unfold al. ring.
    Qed.
    (** the beliefs: a weighted mean minimises the weighted squares *)
    Lemma mean_minimises (t v : S -> R) l z : 0 < rsum t l -> rsum (fun s => t s * (rsum (fun s => t s * v s) l / rsum t l - v s) ^ 2) l <= rsum (fun s => t s * (z - v s) ^ 2) l.
    Proof.
      intros Tp. set (T := rsum t l) in *. set (M := rsum (fun s => t s * v s) l). set (m := M / T).
      assert (E : forall y, rsum (fun s => t s * (y - v s) ^ 2) l = y ^ 2 * T - 2 * y * M + rsum (fun s => t s * v s ^ 2) l).
      { intros y. unfold T, M. rewrite <- (rsum_scal t (y ^ 2)), <- (rsum_scal _ (2 * y)). transitivity (rsum (fun s => (y ^ 2 * t s + - (2 * y * (t s * v s))) + t s * v s ^ 2) l); [apply rsum_ext; intros; ring|].
        rewrite !rsum_plus. f_equal. unfold Rminus. f_equal. transitivity (rsum (fun s => (-1) * (2 * y * (t s * v s))) l); [apply rsum_ext; intros; ring|]. rewrite rsum_scal. ring. }
      rewrite !E. assert (D : z ^ 2 * T - 2 * z * M - (m ^ 2 * T - 2 * m * M) = T * (z - m) ^ 2) by (unfold m; field; lra).
      assert (0 <= T * (z - m) ^ 2) by (apply Rmult_le_pos; [lra|apply pow2_ge_0]). lra.
    Qed.
    Lemma step_belief c : snd (crh_step ts eps x) c = rsum (fun s => fst (crh_step ts eps x) s * vote s c) (sources ts) / rsum (fst (crh_step ts eps x)) (sources ts).
    Proof.
      unfold crh_step. cbn [fst snd]. f_equal. unfold total_trust, supporters. rewrite rsum_filter. apply rsum_ext. intros s _. unfold vote. destruct (says ts s c); lra.
    Qed.
    Lemma step_total : 0 < rsum (fst (crh_step ts eps x)) (sources ts).
    Proof. apply crh_total_pos; assumption. Qed.
  End Step.
End Objective.

Section C70.
  Context {S V W : Type} {ES : Eqb S} {EV : Eqb V} {EW : Eqb W}.
  Notation claim := (V * W)%type.
  Variables (b : bool) (f : option (V -> W -> W -> option R)) (ts : list (S * V * W)) (d : dataset S V W XR).
  Hypothesis Hb : build b (real_imp f) ts = Ok d.
  Variable eps : R.
  Hypothesis He : 0 < eps.

  (** the run returned a result after k iterations, with these scores *)
  Definition crh_result (k : nat) (x : rscores (S:=S) (V:=V) (W:=W)) : Prop :=
    exists clock fuel p it lg r o', run clock fuel (AObj (CRH (Fin eps)) p it lg) d = (Ok r, o') /\ r_iterations r = Some k /\ reports_real ts r x.
  Notation x0 := ((fun _ : S => 0), (fun c : claim => n_supporters ts c / INR (length (sources ts)))).
  Lemma crh_result_rounds k x : crh_result k x -> ts <> [] /\ (forall s, In s (sources ts) -> fst x s = fst (rounds (crh_step ts eps) x0 k) s) /\ forall c, In c (claims ts) -> snd x c = snd (rounds (crh_step ts eps) x0 k) c.
  Proof.
    intros (clock & fuel & p & it & lg & r & o' & Hr & Hk & Rp). destruct (run_has_start b f ts d Hb clock fuel (CRH (Fin eps)) p it lg r o' I Hr) as (NE & _). split; [exact NE|].
    destruct (C39_crh_recurrence b f ts d Hb clock fuel eps p it lg r o' He Hr) as (k' & Hk' & Rp'). rewrite Hk in Hk'. injection Hk' as <-. split.
    - intros s Hs. pose proof (reports_trust ts r _ s Rp Hs) as Q1. pose proof (reports_trust ts r _ s Rp' Hs) as Q2. congruence.
    - intros c Hc. pose proof (reports_belief ts r _ c Rp Hc) as Q1. pose proof (reports_belief ts r _ c Rp' Hc) as Q2. congruence.
  Qed.
  Lemma deviation_ext (g g' : claim -> R) s : (forall c, In c (claims ts) -> g c = g' c) -> deviation ts g s = deviation ts g' s.
  Proof. intros H. apply rsum_ext. intros c Hc. apply filter_In in Hc. rewrite H; [reflexivity|apply Hc]. Qed.
  Lemma objective_ext (x y : rscores (S:=S) (V:=V) (W:=W)) : (forall s, In s (sources ts) -> fst x s = fst y s) -> (forall c, In c (claims ts) -> snd x c = snd y c) -> objective ts eps x = objective ts eps y.
  Proof. intros H1 H2. apply rsum_ext. intros s Hs. rewrite (H1 s Hs), (deviation_ext (snd x) (snd y)) by exact H2. reflexivity. Qed.

  (** The trust scores of a round are the best weights for the beliefs of the round before. *)
  Theorem C70_trust k x y : crh_result k x -> crh_result (Datatypes.S k) y ->
    weighting ts eps (fst y) /\ forall w, weighting ts eps w -> objective ts eps (fst y, snd x) <= objective ts eps (w, snd x).
  Proof.
    intros Hx Hy. destruct (crh_result_rounds _ _ Hx) as (NE & X1 & X2). destruct (crh_result_rounds _ _ Hy) as (_ & Y1 & Y2). cbn [rounds] in Y1, Y2. set (z := rounds (crh_step ts eps) x0 k) in *. split.
    - unfold weighting. rewrite <- (step_weighting ts NE eps He z). apply rsum_ext. intros s Hs. now rewrite Y1.
    - intros w Hw. rewrite (objective_ext (fst y, snd x) (fst (crh_step ts eps z), snd z)) by (cbn; auto). rewrite (objective_ext (w, snd x) (w, snd z)) by (cbn; auto). now apply step_minimises_trust.
  Qed.
  (** The beliefs of a round are the best ones for its trust scores, if a source that says nothing about a variable counts as voting
      against all its values. *)
  Theorem C70_beliefs k y : crh_result (Datatypes.S k) y -> forall g : claim -> R,
    rsum (fun s => fst y s * rsum (fun c => (snd y c - vote ts s c) ^ 2) (claims ts)) (sources ts) <= rsum (fun s => fst y s * rsum (fun c => (g c - vote ts s c) ^ 2) (claims ts)) (sources ts).
  Proof.
    intros Hy g. destruct (crh_result_rounds _ _ Hy) as (NE & Y1 & Y2). cbn [rounds] in Y1, Y2. set (z := rounds (crh_step ts eps) x0 k) in *.
    assert (Sw : forall h : claim -> R, rsum (fun s => fst y s * rsum (fun c => (h c - vote ts s c) ^ 2) (claims ts)) (sources ts) = rsum (fun c => rsum (fun s => fst (crh_step ts eps z) s * (h c - vote ts s c) ^ 2) (sources ts)) (claims ts)).
    { intros h. rewrite rsum_swap. apply rsum_ext. intros s Hs. rewrite Y1 by exact Hs. symmetry. apply rsum_scal. }
    rewrite !Sw. apply rsum_le. intros c Hc. rewrite Y2, step_belief by exact Hc. apply mean_minimises. now apply step_total.
  Qed.
  Lemma complete_objective x : complete ts -> objective ts eps x = rsum (fun s => fst x s * rsum (fun c => (snd x c - vote ts s c) ^ 2) (claims ts)) (sources ts) + eps * rsum (fst x) (sources ts).
  Proof.
    intros C. unfold objective. rewrite <- rsum_scal, <- rsum_plus. apply rsum_ext. intros s Hs. assert (Ed : deviation ts (snd x) s = rsum (fun c => (snd x c - vote ts s c) ^ 2) (claims ts)); [|rewrite Ed; ring].
    unfold deviation. f_equal. transitivity (filter (fun _ => true) (claims ts)); [|clear; induction (claims ts) as [|c l IH]; cbn; congruence]. apply filter_ext_in. intros c Hc. apply C; [exact Hs|]. apply claims_In in Hc. destruct Hc as [s' Hs']. exact (says_var ts s' c Hs').
  Qed.
  (** If every source says something about every variable, the objective never increases from one round to the next. *)
  Theorem C70_descends k x y : complete ts -> (0 < k)%nat -> crh_result k x -> crh_result (Datatypes.S k) y -> objective ts eps y <= objective ts eps x.
  Proof.
    intros C Hk Hx Hy. apply Rle_trans with (objective ts eps (fst y, snd x)).
    - rewrite !complete_objective by exact C. cbn [fst snd]. pose proof (C70_beliefs k y Hy (snd x)). lra.
    - destruct (C70_trust k x y Hx Hy) as [_ M]. apply Rle_trans with (objective ts eps (fst x, snd x)); [|destruct x; cbn; lra]. apply M.
      destruct (crh_result_rounds _ _ Hx) as (NE & X1 & _). destruct k as [|k]; [lia|]. cbn [rounds] in X1. unfold weighting. rewrite <- (step_weighting ts NE eps He (rounds (crh_step ts eps) x0 k)). apply rsum_ext. intros s Hs. now rewrite X1.
  Qed.
  (** There is such a result for every number of iterations. *)
  Theorem C70_returns k : ts <> [] -> exists x, crh_result k x.
  Proof.
    intros NE. pose (n := Z.of_nat k). pose (clock := fun _ : nat => Fin 0). assert (Hn : (Z.to_nat n < Datatypes.S k)%nat) by (unfold n; rewrite Nat2Z.id; lia).
    destruct (C28_fixed_returns b (real_imp f) ts d Hb clock (Datatypes.S k) (CRH (Fin eps)) FIXED n 0 None NE ltac:(discriminate) ltac:(discriminate) Hn) as [r Hr].
    destruct (run clock (Datatypes.S k) (AObj (CRH (Fin eps)) FIXED (IFixed n 0) None) d) as [q o'] eqn:Er. cbn [fst] in Hr. subst q.
    destruct (C39_crh_recurrence b f ts d Hb clock (Datatypes.S k) eps FIXED (IFixed n 0) None r o' He Er) as (k' & Hk' & Rp).
    assert (Ek : r_iterations r = Some (Z.to_nat n)).
    { apply (run_fixed_full b f ts d Hb clock (Datatypes.S k) (CRH (Fin eps)) FIXED n 0 None r o' x0 (crh_step ts eps) (fun _ => True)); [discriminate| |exact Logic.I| |exact Er].
      - apply (init_start b f ts d Hb); [exact NE|exact Logic.I|reflexivity].
      - intros x NE' _. split; [|exact Logic.I]. rewrite (crh_round ts _ d (build_rep _ _ _ _ Hb) NE' eps x He). eauto. }
    unfold n in Ek. rewrite Nat2Z.id in Ek. eexists. exists clock, (Datatypes.S k), FIXED, (IFixed n 0), None, r, o'. split; [exact Er|]. split; [exact Ek|]. exact Rp.
  Qed.
  Lemma objective_nonneg k x : (0 < k)%nat -> crh_result k x -> 0 <= objective ts eps x.
  Proof.
    intros Hk Hx. destruct (crh_result_rounds _ _ Hx) as (NE & X1 & _). destruct k as [|k]; [lia|]. cbn [rounds] in X1. apply rsum_nonneg. intros s Hs.
    pose proof (deviation_nonneg ts (snd x) s). rewrite X1 by exact Hs. pose proof (crh_trust_ge ts eps (rounds (crh_step ts eps) x0 k) s He Hs). apply Rmult_le_pos; lra.
  Qed.
  (** ... so it settles: the objective tends to a limit as the number of iterations grows, and never goes below it. *)
  Theorem C70_settles : ts <> [] -> complete ts -> exists l, 0 <= l /\ (forall k x, (0 < k)%nat -> crh_result k x -> l <= objective ts eps x) /\
    forall delta, 0 < delta -> exists K, forall k x, (K <= k)%nat -> crh_result k x -> objective ts eps x < l + delta.
  Proof.
    intros NE C. pose (u := fun k => objective ts eps (rounds (crh_step ts eps) x0 (Datatypes.S k))).
    assert (Ux : forall k x, crh_result (Datatypes.S k) x -> objective ts eps x = u k). { intros k x Hx. destruct (crh_result_rounds _ _ Hx) as (_ & X1 & X2). now apply objective_ext. }
    assert (D : Un_decreasing u). { intros k. destruct (C70_returns (Datatypes.S k) NE) as [x Hx]. destruct (C70_returns (Datatypes.S (Datatypes.S k)) NE) as [y Hy]. rewrite <- (Ux _ x Hx), <- (Ux _ y Hy). apply (C70_descends (Datatypes.S k)); [exact C|lia|exact Hx|exact Hy]. }
    assert (P : forall k, 0 <= u k). { intros k. destruct (C70_returns (Datatypes.S k) NE) as [x Hx]. rewrite <- (Ux _ x Hx). apply (objective_nonneg (Datatypes.S k)); [lia|exact Hx]. }
    assert (LB : has_lb u). { exists 0. intros y [k ->]. unfold opp_seq. specialize (P k). lra. }
    destruct (decreasing_cv u D LB) as [l Hl].
    assert (L : forall k, l <= u k). { intros k. exact (decreasing_ineq u l D Hl k). }
    exists l. split; [|split].
    - destruct (Rle_or_lt 0 l) as [H|H]; [exact H|]. destruct (Hl (- l)) as [N HN]; [lra|]. specialize (HN N (Nat.le_refl N)). unfold R_dist in HN. specialize (P N). apply Rabs_def2 in HN. lra.
    - intros [|k] x Hk Hx; [lia|]. rewrite (Ux _ x Hx). apply L.
    - intros delta Hd. destruct (Hl delta Hd) as [N HN]. exists (Datatypes.S N). intros [|k] x Hk Hx; [lia|]. rewrite (Ux _ x Hx). specialize (HN k ltac:(lia)). unfold R_dist in HN. apply Rabs_def2 in HN. lra.
  Qed.
End C70.

(** If a source says nothing about some variable the beliefs need not be the best ones for the objective: with s1 saying x = 1 and s2
    saying y = 1, believing both claims fully is better after any number of iterations. *)
Definition apart : list (nat * nat * nat) := [(1, 0, 1); (2, 7, 1)]%nat.
Theorem C70_needs_complete : exists (ts : list (nat * nat * nat)) d, build false (real_imp None) ts = Ok d /\ ~ complete ts /\
  forall eps, 0 < eps -> forall k x, (0 < k)%nat -> crh_result ts d eps k x -> objective ts eps (fst x, fun _ => 1) < objective ts eps x.
Proof.
  assert (ND : NoDup (sv_pairs apart)) by (unfold apart, sv_pairs; cbn; repeat constructor; cbn; intuition congruence).
  destruct (AlgExamples.strict_builds apart ND) as [d Hb]. exists apart, d. split; [exact Hb|]. split.
  { intros C. specialize (C 1 7)%nat. cbn in C. discriminate C; auto. }
  intros eps He k x Hk Hx. destruct (crh_result_rounds false None apart d Hb eps He k x Hx) as (NE & X1 & X2).
  assert (Bel : forall k, snd (rounds (crh_step apart eps) ((fun _ : nat => 0), (fun c => n_supporters apart c / INR (length (sources apart)))) k) (0, 1)%nat = 1/2 /\ snd (rounds (crh_step apart eps) ((fun _ : nat => 0), (fun c => n_supporters apart c / INR (length (sources apart)))) k) (7, 1)%nat = 1/2).
  { clear k x Hk Hx X1 X2. induction k as [|k [IH1 IH2]]; [cbn; lra|]. cbn [rounds]. set (z := rounds _ _ k) in *. clearbody z.
    assert (D1 : deviation apart (snd z) 1%nat = 1/4) by (unfold deviation; cbn; change (t_claim (1, 0, 1)%nat) with (0, 1)%nat; rewrite IH1; lra). assert (D2 : deviation apart (snd z) 2%nat = 1/4) by (unfold deviation; cbn; change (t_claim (2, 7, 1)%nat) with (7, 1)%nat; rewrite IH2; lra).
    pose proof (step_trust apart eps z 1%nat (or_introl eq_refl)) as T1. pose proof (step_trust apart eps z 2%nat (or_intror (or_introl eq_refl))) as T2. rewrite D1 in T1. rewrite D2 in T2. rewrite <- T1 in T2.
    assert (T1p : 0 < fst (crh_step apart eps z) 1%nat) by (pose proof (crh_trust_ge apart eps z 1%nat He (or_introl eq_refl)); lra).
    rewrite !step_belief. set (t := fst (crh_step apart eps z)) in *. clearbody t. cbn [sources distinct map apart rsum]. cbn. rewrite T2. split; field; lra. }
  destruct (Bel k) as [B1 B2]. rewrite <- X2 in B1 by (cbn; auto). rewrite <- X2 in B2 by (cbn; auto).
  assert (P : forall s, In s (sources apart) -> 0 < fst x s). { intros s Hs. rewrite X1 by exact Hs. destruct k as [|k]; [lia|]. cbn [rounds]. pose proof (crh_trust_ge apart eps (rounds (crh_step apart eps) ((fun _ : nat => 0), (fun c => n_supporters apart c / INR (length (sources apart)))) k) s He Hs). lra. }
  pose proof (P 1%nat (or_introl eq_refl)) as P1. pose proof (P 2%nat (or_intror (or_introl eq_refl))) as P2.
  unfold objective, deviation. cbn. change (t_claim (1, 0, 1)%nat) with (0, 1)%nat. change (t_claim (2, 7, 1)%nat) with (7, 1)%nat. rewrite B1, B2. nra.
Qed.

Module CRHExamples.
  (* s1 and s2 say x = 1, s3 says x = 2: complete, and there are results of 1, 2, ... iterations *)
  Example complete_vs : complete AlgExamples.vs.
  Proof. intros s x Hs Hx. cbn in Hs, Hx. destruct Hx as [<-|[]]. destruct Hs as [<-|[<-|[<-|[]]]]; reflexivity. Qed.
  Example settles_vs : exists d, build false (real_imp None) AlgExamples.vs = Ok d /\ exists x y, crh_result AlgExamples.vs d (1/1000) 4 x /\ crh_result AlgExamples.vs d (1/1000) 5 y /\ objective AlgExamples.vs (1/1000) y <= objective AlgExamples.vs (1/1000) x.
  Proof.
    destruct AlgExamples.vs_builds as [d E]. exists d. split; [exact E|]. assert (He : 0 < 1/1000) by lra.
    destruct (C70_returns false None _ d E (1/1000) He 4 ltac:(discriminate)) as [x Hx]. destruct (C70_returns false None _ d E (1/1000) He 5 ltac:(discriminate)) as [y Hy]. exists x, y. split; [exact Hx|]. split; [exact Hy|].
    exact (C70_descends false None _ d E (1/1000) He 4 x y complete_vs ltac:(lia) Hx Hy).
  Qed.
  (* the constraint on the weights can be met in more than one way: ln 3 each, or ln 2, ln 4, ln 4 (plus eps) *)
  Example weightings eps : weighting AlgExamples.vs eps (fun _ => eps + ln 3) /\ weighting AlgExamples.vs eps (fun s => if Nat.eqb s 1 then eps + ln 2 else eps + ln 4).
  Proof.
    assert (E : forall q, 0 < q -> exp (eps - (eps + ln q)) = / q) by (intros q Hq; replace (eps - (eps + ln q)) with (- ln q) by lra; rewrite exp_Ropp, exp_ln by exact Hq; reflexivity).
    unfold weighting. split; cbn; rewrite !E by lra; lra.
  Qed.
End CRHExamples.
