(** C61: TruthFinder is monotone, and converges from a low initial trust.  Exact arithmetic. *)
From Coq Require Import Reals Lra.
From Verif Require Import Base Num Sparse Spec SpecAlg Dataset DatasetProofs DatasetRep Iterators Algorithms Driver Distance Ranking Rounds
  AlgRep AlgRounds AlgTF AlgPack PropsData PropsIter PropsRun PropsAlg ExpSum Spectral Conv Local.
Local Open Scope R_scope.

Section Mono.
  Context {S V W : Type} {ES : Eqb S} {EV : Eqb V} {EW : Eqb W}.
  Notation claim := (V * W)%type.
  Notation rscores := (@rscores S V W).
  (** claims never count against each other *)
  Definition no_negative_implication (f : option (V -> W -> W -> option R)) : Prop :=
    match f with None => True | Some g => forall x w w' q, g x w w' = Some q -> 0 <= q end.
  Lemma implication_nonneg f c c' : no_negative_implication f -> 0 <= implication f c c'.
  Proof.
    intros H. unfold implication. destruct f as [g|]; [|lra]. destruct (_ && _)%bool; [|lra]. destruct (g _ _ _) as [q|] eqn:E; [|lra]. exact (H _ _ _ _ E).
  Qed.
  Lemma tau_mono x y : x <= y -> y < 1 -> - ln (1 - x) <= - ln (1 - y).
  Proof. intros H H1. assert (L : ln (1 - y) <= ln (1 - x)); [|lra]. destruct H as [H| ->]; [|lra]. left. apply ln_increasing; lra. Qed.
  Lemma tau_nonneg x : 0 <= x -> x < 1 -> 0 <= - ln (1 - x).
  Proof. intros H H1. pose proof (tau_mono 0 x H H1) as L. rewrite Rminus_0_r, ln_1 in L. lra. Qed.
  Lemma logistic_mono g u v : 0 <= g -> u <= v -> 1 / (1 + exp (- (g * u))) <= 1 / (1 + exp (- (g * v))).
  Proof.
    intros Hg H. assert (E : exp (- (g * v)) <= exp (- (g * u))).
    { assert (Q : - (g * v) <= - (g * u)) by nra. destruct Q as [Q| ->]; [left; now apply exp_increasing|lra]. }
    pose proof (exp_pos (- (g * v))). unfold Rdiv. rewrite !Rmult_1_l. apply Rinv_le_contravar; lra.
  Qed.

  Section Step.
    Variables (ts ts' : list (S * V * W)) (f : option (V -> W -> W -> option R)) (rho gamma : R).
    Hypothesis Same : same_claims ts ts'.
    Hypothesis Imp : no_negative_implication f.
    Hypothesis Hrho : 0 <= rho.
    Hypothesis Hgamma : 0 <= gamma.
    Lemma tf_step_mono x y : (forall s, In s (sources ts) -> fst x s <= fst y s) -> (forall s, In s (sources ts') -> 0 <= fst y s < 1) ->
      (forall s, In s (sources ts) -> fst (tf_step ts f rho gamma x) s <= fst (tf_step ts' f rho gamma y) s) /\
      (forall c, snd (tf_step ts f rho gamma x) c <= snd (tf_step ts' f rho gamma y) c).
    Proof.
      intros Hxy Hy. set (tx s := - ln (1 - fst x s)). set (ty s := - ln (1 - fst y s)).
      assert (T1 : forall s, In s (sources ts) -> tx s <= ty s) by (intros s Hs; apply tau_mono; [now apply Hxy|apply Hy; now apply (ext_sources ts ts')]).
      assert (T2 : forall s, In s (sources ts') -> 0 <= ty s) by (intros s Hs; apply tau_nonneg; now apply Hy).
      assert (TT : forall c, total_trust ts tx c <= total_trust ts' ty c) by (intros c; now apply ext_total_trust_le).
      assert (TP : forall c, 0 <= total_trust ts' ty c) by (intros c; apply rsum_nonneg; intros s Hs; apply T2; now apply (supporters_sources ts' s c)).
      assert (B : forall c, snd (tf_step ts f rho gamma x) c <= snd (tf_step ts' f rho gamma y) c).
      { intros c. cbn [snd tf_step]. apply logistic_mono; [exact Hgamma|]. apply Rplus_le_compat; [apply TT|]. apply Rmult_le_compat_l; [exact Hrho|].
        apply rsum_incl; try apply claims_NoDup; [intros c'; now apply (ext_claims ts ts')| |].
        - intros c' _. apply Rmult_le_compat_l; [now apply implication_nonneg|apply TT].
        - intros c' _. apply Rmult_le_pos; [now apply implication_nonneg|apply TP]. }
      split; [|exact B]. intros s Hs. cbn [fst tf_step]. rewrite (ext_n_claims ts ts' Same s Hs). unfold Rdiv. apply Rmult_le_compat_r.
      - left. apply Rinv_0_lt_compat, n_claims_pos. now apply (ext_sources ts ts').
      - apply (ext_total_belief_le ts ts' Same); [exact Hs|]. intros c _. apply B.
    Qed.
    Lemma tf_rounds_mono t0 t1 k : t0 <= t1 -> 0 <= t1 < 1 -> let x := rounds (tf_step ts f rho gamma) ((fun _ => t0), (fun _ => 0)) k in let y := rounds (tf_step ts' f rho gamma) ((fun _ => t1), (fun _ => 0)) k in
      (forall s, In s (sources ts) -> fst x s <= fst y s) /\ (forall c, snd x c <= snd y c) /\ (forall s, In s (sources ts') -> 0 <= fst y s < 1).
    Proof.
      intros H01 H1. cbn zeta. induction k as [|k (IH1 & IH2 & IH3)]; [repeat split; intros; cbn; lra|]. cbn [rounds]. destruct (tf_step_mono _ _ IH1 IH3) as [A B]. split; [exact A|]. split; [exact B|].
      intros s Hs. destruct (tf_step_range ts' f rho gamma (rounds (tf_step ts' f rho gamma) ((fun _ => t1), (fun _ => 0)) k)) as [_ G]. specialize (G s Hs). lra.
    Qed.
  End Step.
  Lemma same_refl (ts : list (S * V * W)) : same_claims ts ts. Proof. intros s _ c. reflexivity. Qed.

  (** from a low initial trust the rounds are increasing *)
  Lemma tf_increasing (ts : list (S * V * W)) f rho gamma t0 k : no_negative_implication f -> 0 <= rho -> 0 <= gamma -> 0 <= t0 <= 1 / 2 ->
    let x j := rounds (tf_step ts f rho gamma) ((fun _ => t0), (fun _ => 0)) j in
    (forall s, In s (sources ts) -> fst (x k) s <= fst (x (1 + k)%nat) s) /\ (forall c, In c (claims ts) -> snd (x k) c <= snd (x (1 + k)%nat) c) /\
    (k <> 0%nat -> (forall s, In s (sources ts) -> 1 / 2 <= fst (x k) s) /\ (forall c, 1 / 2 <= snd (x k) c)).
  Proof.
    intros Imp Hr Hg Ht. cbn zeta. set (x j := rounds (tf_step ts f rho gamma) ((fun _ => t0), (fun _ => 0)) j).
    assert (Rg : forall j, forall s, In s (sources ts) -> 0 <= fst (x j) s < 1).
    { intros j. destruct j as [|j]; [intros; cbn; lra|]. intros s Hs. destruct (tf_step_range ts f rho gamma (x j)) as [_ G]. specialize (G s Hs). change (x (Datatypes.S j)) with (tf_step ts f rho gamma (x j)). lra. }
    assert (Half : forall j, (forall s, In s (sources ts) -> 1 / 2 <= fst (x (Datatypes.S j)) s) /\ (forall c, 1 / 2 <= snd (x (Datatypes.S j)) c)).
    { intros j. change (x (Datatypes.S j)) with (tf_step ts f rho gamma (x j)).
      assert (B : forall c, 1 / 2 <= snd (tf_step ts f rho gamma (x j)) c).
      { intros c. cbn [snd tf_step]. set (conf := _ + rho * _).
        assert (TN : forall c, 0 <= total_trust ts (fun s => - ln (1 - fst (x j) s)) c) by (intros c'; apply rsum_nonneg; intros s Hs; apply tau_nonneg; apply Rg; now apply (supporters_sources ts s c')).
        assert (C : 0 <= conf).
        { unfold conf. apply Rplus_le_le_0_compat; [apply TN|]. apply Rmult_le_pos; [exact Hr|]. apply rsum_nonneg. intros c' _. apply Rmult_le_pos; [now apply implication_nonneg|apply TN]. }
        pose proof (logistic_mono gamma 0 conf Hg C) as L. rewrite Rmult_0_r, Ropp_0, exp_0 in L. lra. }
      split; [|exact B]. intros s Hs. cbn [fst tf_step]. pose proof (n_claims_pos ts s Hs) as Pn.
      apply (Rmult_le_reg_r (n_claims ts s)); [exact Pn|]. unfold Rdiv at 2. rewrite Rmult_assoc, Rinv_l, Rmult_1_r by lra.
      unfold n_claims, total_belief. rewrite Rmult_comm, <- rsum_const. apply rsum_le. intros c _. apply B. }
    assert (Inc : (forall s, In s (sources ts) -> fst (x k) s <= fst (x (1 + k)%nat) s) /\ (forall c, In c (claims ts) -> snd (x k) c <= snd (x (1 + k)%nat) c)).
    { induction k as [|k [IH1 IH2]].
      - destruct (Half 0%nat) as [H1 H2]. split; intros z Hz.
        + apply Rle_trans with (1 / 2); [cbn; lra|now apply H1].
        + apply Rle_trans with (1 / 2); [cbn; lra|now apply H2].
      - destruct (tf_step_mono ts ts f rho gamma (same_refl ts) Imp Hr Hg (x k) (x (1 + k)%nat) IH1 (Rg (1 + k)%nat)) as [A B]. split; [exact A|]. intros c _. apply B. }
    split; [exact (proj1 Inc)|]. split; [exact (proj2 Inc)|]. intros Hk. destruct k as [|k]; [congruence|]. apply Half.
  Qed.
End Mono.

Section C61.
  Context {S V W : Type} {ES : Eqb S} {EV : Eqb V} {EW : Eqb W}.
  Notation data := (dataset S V W XR).
  Notation claim := (V * W)%type.
  Notation rscores := (@rscores S V W).
  Notation result := (result S V W xr).
  Notation tf rho gamma t0 := (TruthFinder (Fin rho) (Fin gamma) (Fin t0)).

  (** every score that both results hold is a real number, and not larger in [r] than in [r'] *)
  Definition scores_le (r r' : result) : Prop :=
    (forall s q q', trust_of r s = Some q -> trust_of r' s = Some q' -> exists a a', q = Fin a /\ q' = Fin a' /\ a <= a') /\
    (forall c q q', belief_of r c = Some q -> belief_of r' c = Some q' -> exists a a', q = Fin a /\ q' = Fin a' /\ a <= a').
  Lemma scores_le_intro ts ts' (r r' : result) x y : reports_real ts r x -> reports_real ts' r' y ->
    (forall s, In s (sources ts) -> fst x s <= fst y s) -> (forall c, In c (claims ts) -> snd x c <= snd y c) -> scores_le r r'.
  Proof.
    intros (A & B & _) (A' & B' & _) H1 H2. split; intros z q q' E E'.
    - rewrite A in E. rewrite A' in E'. destruct (mem z (sources ts)) eqn:M; [|discriminate]. destruct (mem z (sources ts')); [|discriminate]. apply mem_In in M.
      injection E as <-. injection E' as <-. eexists. eexists. split; [reflexivity|]. split; [reflexivity|]. auto.
    - rewrite B in E. rewrite B' in E'. destruct (mem z (claims ts)) eqn:M; [|discriminate]. destruct (mem z (claims ts')); [|discriminate]. apply mem_In in M.
      injection E as <-. injection E' as <-. eexists. eexists. split; [reflexivity|]. split; [reflexivity|]. auto.
  Qed.

  Section Two.
    Variables (b b' : bool) (f : option (V -> W -> W -> option R)) (ts ts' : list (S * V * W)) (d d' : data).
    Hypothesis Hb : build b (real_imp f) ts = Ok d.
    Hypothesis Hb' : build b' (real_imp f) ts' = Ok d'.
    Hypothesis Imp : no_negative_implication f.
    Lemma mono_run rho gamma t0 t1 n clock fuel st p lg r o' clock' fuel' st' p' lg' r' o'' : same_claims ts ts' -> 0 <= rho -> 0 <= gamma -> t0 <= t1 -> 0 <= t1 < 1 ->
      run clock fuel (AObj (tf rho gamma t0) p (IFixed n st) lg) d = (Ok r, o') -> run clock' fuel' (AObj (tf rho gamma t1) p' (IFixed n st') lg') d' = (Ok r', o'') -> scores_le r r'.
    Proof.
      intros Sm Hr Hg H01 H1 E E'.
      destruct (C38_truthfinder_recurrence b f ts d Hb _ _ _ _ _ _ _ _ _ _ (Rle_lt_trans _ _ _ H01 (proj2 H1)) E) as (k & _ & Rk & Fk).
      destruct (C38_truthfinder_recurrence b' f ts' d' Hb' _ _ _ _ _ _ _ _ _ _ (proj2 H1) E') as (k' & _ & Rk' & Fk').
      rewrite (Fk n st eq_refl) in Rk. rewrite (Fk' n st' eq_refl) in Rk'.
      destruct (tf_rounds_mono ts ts' f rho gamma Sm Imp Hr Hg t0 t1 (Z.to_nat n) H01 H1) as (A & B & _).
      exact (scores_le_intro ts ts' r r' _ _ Rk Rk' A (fun c _ => B c)).
    Qed.
    (** Claims of further sources never lower any score: if every source of the first data set makes the same claims in the
        second, then after the same number of rounds every trust and belief is at least as high there. *)
    Theorem C61_new_sources_help rho gamma t0 n clock fuel st p lg r o' clock' fuel' st' p' lg' r' o'' : same_claims ts ts' -> 0 <= rho -> 0 <= gamma -> 0 <= t0 < 1 ->
      run clock fuel (AObj (tf rho gamma t0) p (IFixed n st) lg) d = (Ok r, o') -> run clock' fuel' (AObj (tf rho gamma t0) p' (IFixed n st') lg') d' = (Ok r', o'') -> scores_le r r'.
    Proof. intros Sm Hr Hg Ht E E'. refine (mono_run _ _ _ _ _ _ _ _ _ _ _ _ _ _ _ _ _ _ _ Sm Hr Hg _ Ht E E'). lra. Qed.
  End Two.

  Section One.
    Variables (b : bool) (f : option (V -> W -> W -> option R)) (ts : list (S * V * W)) (d : data).
    Hypothesis Hb : build b (real_imp f) ts = Ok d.
    Hypothesis Imp : no_negative_implication f.
    Let R0 : ds_rep ts (real_imp f) d := build_rep _ _ _ _ Hb.
    (** A higher initial trust never lowers any score. *)
    Theorem C61_monotone_in_initial_trust rho gamma t0 t1 n clock fuel st p lg r o' clock' fuel' st' p' lg' r' o'' : 0 <= rho -> 0 <= gamma -> t0 <= t1 -> 0 <= t1 < 1 ->
      run clock fuel (AObj (tf rho gamma t0) p (IFixed n st) lg) d = (Ok r, o') -> run clock' fuel' (AObj (tf rho gamma t1) p' (IFixed n st') lg') d = (Ok r', o'') -> scores_le r r'.
    Proof. exact (mono_run b b f ts ts d d Hb Hb Imp rho gamma t0 t1 n clock fuel st p lg r o' clock' fuel' st' p' lg' r' o'' (same_refl ts)). Qed.

    Section Low.
      Variables (rho gamma t0 : R).
      Hypothesis Hrho : 0 <= rho.
      Hypothesis Hgamma : 0 <= gamma.
      Hypothesis Ht : 0 <= t0 <= 1 / 2.
      Let x k := rounds (tf_step ts f rho gamma) ((fun _ => t0), (fun _ => 0)) k.
      Lemma low_mono k k' : (k <= k')%nat -> (forall s, In s (sources ts) -> fst (x k) s <= fst (x k') s) /\ (forall c, In c (claims ts) -> snd (x k) c <= snd (x k') c).
      Proof.
        intros H. induction H as [|m H [IH1 IH2]]; [split; intros; lra|]. destruct (tf_increasing ts f rho gamma t0 m Imp Hrho Hgamma Ht) as (A & B & _).
        split; intros z Hz; [specialize (IH1 z Hz); specialize (A z Hz)|specialize (IH2 z Hz); specialize (B z Hz)]; change (x (Datatypes.S m)) with (x (1 + m)%nat); unfold x in *; lra.
      Qed.
      (** From an initial trust of at most 1/2, more rounds never lower any score. *)
      Theorem C61_more_rounds n n' clock fuel st p lg r o' clock' fuel' st' p' lg' r' o'' : (n <= n')%Z ->
        run clock fuel (AObj (tf rho gamma t0) p (IFixed n st) lg) d = (Ok r, o') -> run clock' fuel' (AObj (tf rho gamma t0) p' (IFixed n' st') lg') d = (Ok r', o'') -> scores_le r r'.
      Proof.
        intros Hn E E'. assert (T1 : t0 < 1) by lra.
        destruct (C38_truthfinder_recurrence b f ts d Hb _ _ _ _ _ _ _ _ _ _ T1 E) as (k & _ & Rk & Fk). destruct (C38_truthfinder_recurrence b f ts d Hb _ _ _ _ _ _ _ _ _ _ T1 E') as (k' & _ & Rk' & Fk').
        rewrite (Fk n st eq_refl) in Rk. rewrite (Fk' n' st' eq_refl) in Rk'. destruct (low_mono (Z.to_nat n) (Z.to_nat n') ltac:(lia)) as [A B].
        exact (scores_le_intro ts ts r r' _ _ Rk Rk' A B).
      Qed.
      Lemma low_limit : exists z : rscores, (forall s, In s (sources ts) -> Un_cv (fun k => fst (x k) s) (fst z s) /\ 1 / 2 <= fst z s <= 1) /\ (forall c, In c (claims ts) -> Un_cv (fun k => snd (x k) c) (snd z c) /\ 1 / 2 <= snd z c <= 1).
      Proof.
        assert (Up : forall k, (forall s, In s (sources ts) -> fst (x k) s <= 1) /\ (forall c, snd (x k) c <= 1)).
        { intros [|k]; [split; intros; cbn; lra|]. destruct (tf_step_range ts f rho gamma (x k)) as [G1 G2]. change (x (Datatypes.S k)) with (tf_step ts f rho gamma (x k)). split; [intros s Hs; specialize (G2 s Hs)|intros c; specialize (G1 c)]; lra. }
        assert (Lm : forall u : nat -> R, Un_growing u -> 1 / 2 <= u 1%nat -> (forall k, u k <= 1) -> exists z, Un_cv u z /\ 1 / 2 <= z <= 1).
        { intros u Gu Hu Bu. destruct (growing_cv u Gu) as [z C]; [exists 1; intros y (k & ->); apply Bu|]. exists z. split; [exact C|]. split.
          - apply Rle_trans with (u 1%nat); [exact Hu|]. now apply growing_ineq.
          - apply Ropp_le_cancel. apply (cv_le (fun k => - u k)); [intros; apply Ropp_le_contravar, Bu|]. now apply (CV_opp u). }
        assert (Ch : forall A (EA : Eqb A) (P : A -> R -> Prop) l, (forall x, In x l -> exists z, P x z) -> exists g, forall x, In x l -> P x (g x)).
        { intros A EA P l. induction l as [|y l IH]; intros H; [exists (fun _ => 0); intros ? []|]. destruct IH as [g G]; [intros; apply H; now right|]. destruct (H y (or_introl eq_refl)) as [z Z].
          exists (fun x => if beq x y then z else g x). intros x' Hx. destruct (beq_spec x' y) as [->|N]; [exact Z|]. destruct Hx as [->|Hx]; [congruence|auto]. }
        destruct (Ch S ES (fun s z => Un_cv (fun k => fst (x k) s) z /\ 1 / 2 <= z <= 1) (sources ts)) as [zs Zs].
        { intros s Hs. apply Lm; [|apply (tf_increasing ts f rho gamma t0 1 Imp Hrho Hgamma Ht); [discriminate|exact Hs]|intros k; now apply Up].
          intros k. now apply (tf_increasing ts f rho gamma t0 k Imp Hrho Hgamma Ht). }
        destruct (Ch claim _ (fun c z => Un_cv (fun k => snd (x k) c) z /\ 1 / 2 <= z <= 1) (claims ts)) as [zc Zc].
        { intros s Hs. apply Lm; [|apply (tf_increasing ts f rho gamma t0 1 Imp Hrho Hgamma Ht); discriminate|intros k; now apply Up].
          intros k. now apply (tf_increasing ts f rho gamma t0 k Imp Hrho Hgamma Ht). }
        exists (zs, zc). split; [exact Zs|exact Zc].
      Qed.
      (** The scores converge to limits between 1/2 and 1. *)
      Theorem C61_converges : exists z : rscores, (forall s, In s (sources ts) -> 1 / 2 <= fst z s <= 1) /\ (forall c, In c (claims ts) -> 1 / 2 <= snd z c <= 1) /\
        forall eps, 0 < eps -> exists N, forall clock fuel p it lg r o' k, run clock fuel (AObj (tf rho gamma t0) p it lg) d = (Ok r, o') -> r_iterations r = Some k -> (N <= k)%nat ->
          exists u, reports_real ts r u /\ (forall s, In s (sources ts) -> Rabs (fst u s - fst z s) < eps) /\ (forall c, In c (claims ts) -> Rabs (snd u c - snd z c) < eps).
      Proof.
        destruct low_limit as (z & Zs & Zc). exists z. split; [intros; now apply Zs|]. split; [intros; now apply Zc|]. intros eps He.
        destruct (eventually_all (fun s k => Rabs (fst (x k) s - fst z s) < eps) (sources ts)) as [N1 K1]; [intros s Hs; exact (proj1 (Zs s Hs) eps He)|].
        destruct (eventually_all (fun c k => Rabs (snd (x k) c - snd z c) < eps) (claims ts)) as [N2 K2]; [intros c Hc; exact (proj1 (Zc c Hc) eps He)|].
        exists (N1 + N2)%nat. intros clock fuel p it lg r o' k H Hk Hn. assert (T1 : t0 < 1) by lra.
        destruct (C38_truthfinder_recurrence b f ts d Hb _ _ _ _ _ _ _ _ _ _ T1 H) as (k' & Ek & Rk & _). rewrite Hk in Ek. injection Ek as <-.
        exists (x k). split; [exact Rk|]. split; intros; [apply K1|apply K2]; auto; lia.
      Qed.
      (** Iteration until convergence (the default of TruthFinder) returns, for every measure and positive threshold, if the limit is large enough. *)
      Theorem C61_terminates p m thr : ts <> [] -> m <> BadMeasure -> 0 < thr ->
        exists N, forall clock fuel lim n cur lg, (Z.of_nat N < lim)%Z -> (N + 1 < fuel)%nat ->
          exists r o', run clock fuel (AObj (tf rho gamma t0) p (IConv m (Fin thr) lim n cur) lg) d = (Ok r, o') /\ r_iterations r = Some (Datatypes.S N).
      Proof.
        intros NE Hm Hthr. set (a := tf rho gamma t0). assert (T1 : t0 < 1) by lra. pose proof (T1 : params_ok a) as Hp. pose proof (I : data_ok ts a) as Hd.
        set (x0 := ((fun _ => t0), (fun _ => 0)) : rscores). assert (Hg : good ts a x0) by (intros s _; exact T1).
        set (D k := real_distance m (sources ts) (fst (x (1 + k)%nat)) (fst (x k))).
        assert (Ex : exists k, D k < thr).
        { destruct low_limit as (z & Zs & _).
          assert (C : Un_cv D 0).
          { apply (distance_cv m (sources ts) (fun k => fst (x (1 + k)%nat)) (fun k => fst (x k)) (fst z)); [exact (src_ne ts NE)|exact Hm| | |].
            - intros s Hs. apply (cv_shift (fun k => fst (x k) s)). now apply Zs.
            - intros s Hs. now apply Zs.
            - pose proof (src_ne ts NE) as SN. destruct (sources ts) as [|s l]; [congruence|]. exists s. split; [now left|]. destruct (Zs s (or_introl eq_refl)). lra. }
          destruct (C thr Hthr) as [N K]. exists N. specialize (K N (le_n N)). unfold R_dist in K. rewrite Rminus_0_r in K. apply Rabs_def2 in K. exact (proj1 K). }
        assert (Least : exists k, D k < thr /\ forall j, (j < k)%nat -> ~ D j < thr).
        { destruct Ex as [k Hk]. revert Hk. induction k as [k IH] using (well_founded_induction lt_wf). intros Hk.
          destruct (Classical_Prop.classic (exists j, (j < k)%nat /\ D j < thr)) as [(j & Hj & Dj)|No]; [exact (IH j Hj Dj)|]. exists k. split; [exact Hk|]. intros j Hj Dj. apply No. eauto. }
        destruct Least as (N & DN & DL). exists N. intros clock fuel lim n cur lg Hlim Hf.
        rewrite (run_char clock ts (real_imp f) d R0 NE). pose proof (pack_start b f ts d Hb NE a p Hp) as PS. change (start ts a p) with (Some x0) in PS. rewrite PS. cbn [option_map reset].
        pose proof (pack_cmp b f ts d Hb NE a x0 Hp Hd Hg) as C.
        rewrite (it_loop_conv_stop (cmp1 a d (denote ts x0)) (cmp2 a d (denote ts x0)) (stops a d (denote ts x0)) m (Fin thr) lim fuel N (fun j => Fin (D j))).
        - rewrite (proj1 (pack_scores b f ts d Hb NE a x0 Hp Hd Hg (Datatypes.S N))). cbn [final]. eexists. eexists. split; [reflexivity|]. reflexivity.
        - intros j. destruct (C j) as (-> & -> & _). exact (get_distance_real m (sources ts) _ _ (src_ne ts NE) Hm).
        - intros j. apply C.
        - exact Hlim.
        - intros j Hj. change (rltb (D j) thr = false). destruct (rltb_spec (D j) thr); [exfalso; now apply (DL j Hj)|reflexivity].
        - change (rltb (D N) thr = true). now apply rltb_true.
        - exact Hf.
      Qed.
    End Low.
  End One.
End C61.

(** ** Non-vacuity *)
Module MonoExamples.
  Import ListNotations.
  Definition old : list (nat * nat * nat) := [(1, 0, 1); (1, 7, 1); (2, 0, 5)]%nat.
  Definition new : list (nat * nat * nat) := [(3, 0, 1); (1, 0, 1); (1, 7, 1); (3, 8, 2); (2, 0, 5)]%nat.
  Example old_new : same_claims old new.
  Proof. exact (keep_same (fun s => negb (Nat.eqb s 3)) new). Qed.
  (* both runs exist *)
  Example both_run : exists (d d' : dataset nat nat nat XR) r r', build false (real_imp None) old = Ok d /\ build false (real_imp None) new = Ok d' /\
    let a := TruthFinder (Fin (1/2)) (Fin (3/10)) (Fin (9/10)) in
    fst (run (fun _ => Fin 0) 9 (AObj a FIXED (IFixed 5 0) None) d) = Ok r /\ fst (run (fun _ => Fin 0) 9 (AObj a FIXED (IFixed 5 0) None) d') = Ok r' /\ scores_le r r'.
  Proof.
    assert (E1 : exists d : dataset nat nat nat XR, build false (real_imp None) old = Ok d) by (apply AlgExamples.strict_builds; unfold old, sv_pairs; cbn; repeat constructor; cbn; intuition congruence).
    assert (E2 : exists d : dataset nat nat nat XR, build false (real_imp None) new = Ok d) by (apply AlgExamples.strict_builds; unfold new, sv_pairs; cbn; repeat constructor; cbn; intuition congruence).
    destruct E1 as [d E1]. destruct E2 as [d' E2]. exists d, d'. set (a := TruthFinder (Fin (1/2)) (Fin (3/10)) (Fin (9/10))).
    assert (A : a <> UnboundedSums) by discriminate. assert (B : (Z.to_nat 5 < 9)%nat) by (change (Z.to_nat 5) with 5%nat; lia).
    destruct (C28_fixed_returns false (real_imp None) old d E1 (fun _ => Fin 0) 9 a FIXED 5 0 None ltac:(discriminate) A ltac:(discriminate) B) as [r Er].
    destruct (C28_fixed_returns false (real_imp None) new d' E2 (fun _ => Fin 0) 9 a FIXED 5 0 None ltac:(discriminate) A ltac:(discriminate) B) as [r' Er'].
    exists r, r'. split; [exact E1|]. split; [exact E2|]. cbn zeta. split; [exact Er|]. split; [exact Er'|].
    refine (C61_new_sources_help false false None old new d d' E1 E2 I (1/2) (3/10) (9/10) 5 (fun _ => Fin 0) 9 0 FIXED None r (snd (run (fun _ => Fin 0) 9 (AObj a FIXED (IFixed 5 0) None) d))
      (fun _ => Fin 0) 9 0 FIXED None r' (snd (run (fun _ => Fin 0) 9 (AObj a FIXED (IFixed 5 0) None) d')) old_new _ _ _ _ _); try lra.
    - rewrite <- Er. apply surjective_pairing.
    - rewrite <- Er'. apply surjective_pairing.
  Qed.
End MonoExamples.
