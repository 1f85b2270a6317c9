(** C71: CRH with a convergence test stops, if every source says something about every variable.  Exact arithmetic. *)
From Coq Require Import Reals Lra Psatz.
From Verif Require Import Base Num Sparse Spec SpecAlg Dataset DatasetProofs DatasetRep Iterators Algorithms Driver Rounds Distance Conv
  AlgRep AlgRounds AlgTF AlgPack PropsData PropsIter PropsRun PropsAlg PropsConv PropsCRH.
Local Open Scope R_scope.

(** ** Close vectors have small distances *)
Lemma n_ge1 {A} (l : list A) : l <> [] -> 1 <= INR (length l).
Proof. intros NE. destruct l as [|a q]; [congruence|]. cbn [length]. rewrite S_INR. pose proof (pos_INR (length q)). lra. Qed.
Section Close.
  Context {A : Type}.
  Variables (l : list A) (f g : A -> R) (e eta : R).
  Hypothesis NE : l <> [].
  Hypothesis e_pos : 0 < e.
  Hypothesis Heta : 0 <= eta <= 1.
  Hypothesis Hf : forall i, In i l -> e <= f i.
  Hypothesis Hg : forall i, In i l -> e <= g i.
  Hypothesis Hfg : forall i, In i l -> Rabs (f i - g i) <= eta.
  Notation n := (INR (length l)).
  Lemma sq_ge h : (forall i, In i l -> e <= h i) -> e * e <= rsum (fun i => h i * h i) l.
  Proof.
    intros H. destruct l as [|a q]; [congruence|]. cbn [rsum]. pose proof (H a (or_introl eq_refl)).
    assert (0 <= rsum (fun i => h i * h i) q) by (apply rsum_nonneg; intros; apply sqnn). nra.
  Qed.
  Lemma l1_le : rsum (fun i => Rabs (f i - g i)) l <= n * eta.
  Proof. rewrite <- rsum_const. apply rsum_le. exact Hfg. Qed.
  Lemma sq_le : rsum (fun i => (f i - g i) * (f i - g i)) l <= n * eta.
  Proof.
    rewrite <- rsum_const. apply rsum_le. intros i Hi. specialize (Hfg i Hi). pose proof (Rabs_pos (f i - g i)).
    replace ((f i - g i) * (f i - g i)) with (Rabs (f i - g i) * Rabs (f i - g i)) by (rewrite <- Rabs_mult; apply Rabs_right, Rle_ge, sqnn). nra.
  Qed.
  Lemma sq_le_n2 : rsum (fun i => (f i - g i) * (f i - g i)) l <= (n * eta) * (n * eta).
  Proof.
    pose proof (n_ge1 l NE). apply Rle_trans with (n * (eta * eta)); [|nra]. rewrite <- rsum_const. apply rsum_le. intros i Hi. specialize (Hfg i Hi). pose proof (Rabs_pos (f i - g i)).
    replace ((f i - g i) * (f i - g i)) with (Rabs (f i - g i) * Rabs (f i - g i)) by (rewrite <- Rabs_mult; apply Rabs_right, Rle_ge, sqnn). nra.
  Qed.
  Lemma distance_close m : real_distance m l f g <= (n + n / (e * e)) * eta.
  Proof.
    pose proof (n_ge1 l NE) as N1. assert (ee : 0 < e * e) by nra. assert (Q0 : 0 <= n / (e * e) * eta). { apply Rmult_le_pos; [|lra]. apply Rlt_le, Rdiv_lt_0_compat; lra. }
    assert (N0 : 0 <= n * eta) by nra. rewrite Rmult_plus_distr_r.
    destruct m; cbn [real_distance].
    - pose proof l1_le. lra.
    - apply Rle_trans with (sqrt ((n * eta) * (n * eta))); [apply sqrt_le_1_alt; apply sq_le_n2|]. rewrite sqrt_square by exact N0. lra.
    - destruct (rmax_In (fun i => Rabs (f i - g i)) l NE) as (i & Hi & ->). pose proof (Hfg i Hi). nra.
    - set (P := rsum (fun i => f i * f i) l). set (Q := rsum (fun i => g i * g i) l). set (C := rsum (fun i => f i * g i) l).
      assert (HP : e * e <= P) by (apply sq_ge, Hf). assert (HQ : e * e <= Q) by (apply sq_ge, Hg).
      rewrite (reqb_false P 0), (reqb_false Q 0) by lra. cbn [orb].
      assert (D : P + Q - 2 * C <= n * eta).
      { pose proof sq_le as SL. assert (E : rsum (fun i => (f i - g i) * (f i - g i)) l = P + Q - 2 * C); [|lra].
        unfold P, Q, C. rewrite (rsum_ext _ (fun i => (f i * f i + g i * g i) + (-2) * (f i * g i))) by (intros; ring). rewrite rsum_plus, rsum_plus, rsum_scal. lra. }
      assert (sP : 0 < sqrt P) by (apply sqrt_lt_R0; lra). assert (sQ : 0 < sqrt Q) by (apply sqrt_lt_R0; lra).
      assert (AG : 2 * (sqrt P * sqrt Q) <= P + Q). { pose proof (sqrt_sqrt P ltac:(lra)) as S1. pose proof (sqrt_sqrt Q ltac:(lra)) as S2. pose proof (sqnn (sqrt P - sqrt Q)). nra. }
      assert (eP : e <= sqrt P) by (rewrite <- (sqrt_square e) by lra; apply sqrt_le_1_alt; exact HP). assert (eQ : e <= sqrt Q) by (rewrite <- (sqrt_square e) by lra; apply sqrt_le_1_alt; exact HQ).
      set (p := sqrt P * sqrt Q) in *. assert (ep : e * e <= p) by (unfold p; nra).
      assert (G : 1 - C / p <= n / (e * e) * eta).
      { assert (p - C <= n * eta / 2) by lra. replace (1 - C / p) with ((p - C) / p) by (field; lra). apply Rle_trans with (n * eta / p).
        - apply Rmult_le_compat_r; [|lra]. apply Rlt_le, Rinv_0_lt_compat. lra.
        - replace (n / (e * e) * eta) with (n * eta / (e * e)) by (field; lra). apply Rmult_le_compat_l; [exact N0|]. apply Rinv_le_contravar; lra. }
      unfold rclip. apply Rmax_lub; [lra|]. apply Rle_trans with (1 - C / p); [apply Rmin_l|]. lra.
    - lra.
  Qed.
End Close.

Lemma ln_div u v : 0 < u -> 0 < v -> ln (u / v) = ln u - ln v.
Proof. intros Hu Hv. unfold Rdiv. rewrite ln_mult, ln_Rinv; [lra|exact Hv|exact Hu|now apply Rinv_0_lt_compat]. Qed.
Lemma ln_close u v e : 0 < e -> e <= u -> e <= v -> Rabs (ln u - ln v) <= Rabs (u - v) / e.
Proof.
  intros He Hu Hv. assert (L : forall u v, e <= u -> e <= v -> u <= v -> ln v - ln u <= (v - u) / e).
  { clear u v Hu Hv. intros u v Hu Hv H. assert (0 < v / u) by (apply Rdiv_lt_0_compat; lra). rewrite <- ln_div by lra.
    assert (Q : ln (v / u) <= v / u - 1) by (pose proof (exp_ineq1_le (ln (v / u))) as X; rewrite exp_ln in X by assumption; lra).
    apply Rle_trans with ((v - u) / u); [replace ((v - u) / u) with (v / u - 1) by (field; lra); exact Q|]. apply Rmult_le_compat_l; [lra|]. apply Rinv_le_contravar; lra. }
  destruct (Rle_or_lt u v) as [H|H].
  - pose proof (L u v Hu Hv H) as G. assert (ln u <= ln v) by (destruct H as [H| ->]; [left; apply ln_increasing; lra|right; reflexivity]). rewrite Rabs_left1 by lra. rewrite Rabs_left1 by lra. lra.
  - pose proof (L v u Hv Hu (Rlt_le _ _ H)) as G. assert (ln v <= ln u) by (left; apply ln_increasing; lra). rewrite Rabs_right by lra. rewrite Rabs_right by lra. lra.
Qed.

Lemma rsum_abs {A} (h : A -> R) l : Rabs (rsum h l) <= rsum (fun x => Rabs (h x)) l.
Proof. induction l as [|a l IH]; cbn [rsum]; [rewrite Rabs_R0; lra|]. pose proof (Rabs_triang (h a) (rsum h l)). lra. Qed.

Lemma filter_length_le {A} (q : A -> bool) l : (length (filter q l) <= length l)%nat.
Proof. induction l as [|a l IH]; cbn; [lia|]. destruct (q a); cbn; lia. Qed.

Section C71.
  Context {S V W : Type} {ES : Eqb S} {EV : Eqb V} {EW : Eqb W}.
  Notation claim := (V * W)%type.
  Variables (b : bool) (f : option (V -> W -> W -> option R)) (ts : list (S * V * W)) (d : dataset S V W XR).
  Hypothesis Hb : build b (real_imp f) ts = Ok d.
  Variable eps : R.
  Hypothesis He : 0 < eps.
  Notation x0 := ((fun _ : S => 0), (fun c : claim => n_supporters ts c / INR (length (sources ts)))).
  Notation x k := (rounds (crh_step ts eps) x0 k).
  Notation n := (INR (length (sources ts))).
  Notation m := (INR (length (claims ts))).

  Lemma belief_range (NE : ts <> []) k c : 0 <= snd (x k) c <= 1.
  Proof.
    destruct k as [|k]; cbn [rounds].
    - cbn [snd]. unfold n_supporters. pose proof (src_ne ts NE) as SN. assert (np : 0 < n) by (apply lt_0_INR; destruct (sources ts); [congruence|cbn; lia]).
      split; [apply Rmult_le_pos; [apply pos_INR|left; now apply Rinv_0_lt_compat]|]. apply Rmult_le_reg_r with n; [exact np|]. unfold Rdiv. rewrite Rmult_assoc, Rinv_l by lra. rewrite Rmult_1_r, Rmult_1_l. apply le_INR.
      unfold supporters. apply filter_length_le.
    - rewrite step_belief. pose proof (step_total ts NE eps He (x k)) as T. set (t := fst (crh_step ts eps (x k))) in *.
      assert (tp : forall s, In s (sources ts) -> 0 <= t s) by (intros s Hs; pose proof (crh_trust_ge ts eps (x k) s He Hs); unfold t; lra).
      assert (0 <= rsum (fun s => t s * vote ts s c) (sources ts) <= rsum t (sources ts)).
      { split; [apply rsum_nonneg|apply rsum_le]; intros s Hs; specialize (tp s Hs); unfold vote; destruct (says ts s c); lra. }
      split; [apply Rmult_le_pos; [lra|left; now apply Rinv_0_lt_compat]|]. apply Rmult_le_reg_r with (rsum t (sources ts)); [exact T|]. unfold Rdiv. rewrite Rmult_assoc, Rinv_l by lra. lra.
  Qed.
  Lemma deviation_close g h delta s : (forall c, 0 <= g c <= 1) -> (forall c, 0 <= h c <= 1) -> 0 <= delta -> (forall c, In c (claims ts) -> Rabs (g c - h c) <= delta) ->
    Rabs (deviation ts g s - deviation ts h s) <= m * (2 * delta).
  Proof.
    intros Hg Hh Hd H. unfold deviation. set (l := filter (fun c => answers ts s (fst c)) (claims ts)).
    replace (rsum (fun c => (g c - vote ts s c) ^ 2) l - rsum (fun c => (h c - vote ts s c) ^ 2) l) with (rsum (fun c => (g c - h c) * (g c + h c - 2 * vote ts s c)) l).
    2:{ assert (E : rsum (fun c => (g c - vote ts s c) ^ 2) l = rsum (fun c => (g c - h c) * (g c + h c - 2 * vote ts s c) + (h c - vote ts s c) ^ 2) l) by (apply rsum_ext; intros; ring). rewrite rsum_plus in E. lra. }
    eapply Rle_trans; [apply rsum_abs|]. apply Rle_trans with (rsum (fun _ => 2 * delta) l).
    - apply rsum_le. intros c Hc. apply filter_In in Hc. rewrite Rabs_mult. specialize (H c (proj1 Hc)). specialize (Hg c). specialize (Hh c). pose proof (Rabs_pos (g c - h c)).
      assert (Rabs (g c + h c - 2 * vote ts s c) <= 2) by (unfold vote; destruct (says ts s c); apply Rabs_le; lra). pose proof (Rabs_pos (g c + h c - 2 * vote ts s c)). nra.
    - rewrite rsum_const. apply Rmult_le_compat_r; [lra|]. apply le_INR. apply filter_length_le.
  Qed.
  Lemma trust_close (NE : ts <> []) (y z : rscores (S:=S) (V:=V) (W:=W)) delta s : (forall c, 0 <= snd y c <= 1) -> (forall c, 0 <= snd z c <= 1) -> 0 <= delta -> (forall c, In c (claims ts) -> Rabs (snd y c - snd z c) <= delta) -> In s (sources ts) ->
    Rabs (fst (crh_step ts eps y) s - fst (crh_step ts eps z) s) <= (2 * m * (1 + n) / eps) * delta.
  Proof.
    intros Hy Hz Hd H Hs. rewrite !step_trust by exact Hs.
    set (al := fun u : rscores (S:=S) (V:=V) (W:=W) => fun s => eps + deviation ts (snd u) s). change (eps + deviation ts (snd y) s) with (al y s). change (eps + deviation ts (snd z) s) with (al z s).
    change (fun s0 => eps + deviation ts (snd y) s0) with (al y). change (fun s0 => eps + deviation ts (snd z) s0) with (al z).
    assert (alp : forall u s, eps <= al u s) by (intros u s'; unfold al; pose proof (deviation_nonneg ts (snd u) s'); lra).
    assert (Ap : forall u, eps <= rsum (al u) (sources ts)). { intros u. eapply Rle_trans; [apply (alp u s)|]. apply rsum_ge_In; [|exact Hs]. intros s' _. pose proof (alp u s'). lra. }
    assert (Dal : forall s', Rabs (al y s' - al z s') <= m * (2 * delta)). { intros s'. replace (al y s' - al z s') with (deviation ts (snd y) s' - deviation ts (snd z) s') by (unfold al; lra). now apply deviation_close. }
    assert (DA : Rabs (rsum (al y) (sources ts) - rsum (al z) (sources ts)) <= n * (m * (2 * delta))).
    { replace (rsum (al y) (sources ts) - rsum (al z) (sources ts)) with (rsum (fun s => al y s - al z s) (sources ts)).
      2:{ assert (E : rsum (al y) (sources ts) = rsum (fun s => (al y s - al z s) + al z s) (sources ts)) by (apply rsum_ext; intros; ring). rewrite rsum_plus in E. lra. }
      eapply Rle_trans; [apply rsum_abs|]. rewrite <- rsum_const. apply rsum_le. intros s' _. apply Dal. }
    pose proof (alp y s). pose proof (alp z s). pose proof (Ap y). pose proof (Ap z). specialize (Dal s).
    rewrite !ln_div by lra. set (ly := ln (al y s)). set (lz := ln (al z s)). set (Ly := ln (rsum (al y) (sources ts))). set (Lz := ln (rsum (al z) (sources ts))).
    assert (C1 : Rabs (ly - lz) <= m * (2 * delta) / eps). { eapply Rle_trans; [apply (ln_close _ _ eps); assumption|]. apply Rmult_le_compat_r; [left; now apply Rinv_0_lt_compat|exact Dal]. }
    assert (C2 : Rabs (Ly - Lz) <= n * (m * (2 * delta)) / eps). { eapply Rle_trans; [apply (ln_close _ _ eps); assumption|]. apply Rmult_le_compat_r; [left; now apply Rinv_0_lt_compat|exact DA]. }
    replace (eps - (ly - Ly) - (eps - (lz - Lz))) with ((Ly - Lz) + - (ly - lz)) by lra. eapply Rle_trans; [apply Rabs_triang|]. rewrite Rabs_Ropp.
    replace (2 * m * (1 + n) / eps * delta) with (n * (m * (2 * delta)) / eps + m * (2 * delta) / eps) by (field; lra). lra.
  Qed.
  (** the drop of the objective bounds the change of the beliefs *)
  Lemma mean_gain (t v : S -> R) l z : 0 < rsum t l -> rsum (fun s => t s * (z - v s) ^ 2) l = rsum (fun s => t s * (rsum (fun s => t s * v s) l / rsum t l - v s) ^ 2) l + rsum t l * (z - rsum (fun s => t s * v s) l / rsum t l) ^ 2.
  Proof.
    intros Tp. set (T := rsum t l) in *. set (M := rsum (fun s => t s * v s) l).
    assert (E : forall y, rsum (fun s => t s * (y - v s) ^ 2) l = y ^ 2 * T - 2 * y * M + rsum (fun s => t s * v s ^ 2) l).
    { intros y. unfold T, M. rewrite <- (rsum_scal t (y ^ 2)), <- (rsum_scal _ (2 * y)). transitivity (rsum (fun s => (y ^ 2 * t s + - (2 * y * (t s * v s))) + t s * v s ^ 2) l); [apply rsum_ext; intros; ring|].
      rewrite !rsum_plus. f_equal. unfold Rminus. f_equal. transitivity (rsum (fun s => (-1) * (2 * y * (t s * v s))) l); [apply rsum_ext; intros; ring|]. rewrite rsum_scal. ring. }
    rewrite !E. field. lra.
  Qed.
  Lemma drop (NE : ts <> []) (C : complete ts) k c : In c (claims ts) ->
    eps * (snd (x (Datatypes.S k)) c - snd (x (Datatypes.S (Datatypes.S k))) c) ^ 2 <= objective ts eps (x (Datatypes.S k)) - objective ts eps (x (Datatypes.S (Datatypes.S k))).
  Proof.
    intros Hc. cbn [rounds]. set (z := crh_step ts eps (x k)). set (y := crh_step ts eps z).
    assert (W1 : weighting ts eps (fst z)) by (apply step_weighting; assumption).
    assert (M : objective ts eps (fst y, snd z) <= objective ts eps z) by (destruct z as [zt zb] eqn:Ez; cbn [fst snd] in *; unfold y; apply (step_minimises_trust ts eps He (zt, zb) zt W1)).
    assert (T : 0 < rsum (fst y) (sources ts)) by (apply step_total; assumption).
    assert (T' : eps <= rsum (fst y) (sources ts)).
    { destruct (src_exists ts NE) as [s0 Hs0]. eapply Rle_trans; [apply (crh_trust_ge ts eps z s0 He Hs0)|]. apply (rsum_ge_In (fst y)); [|exact Hs0]. intros s Hs. pose proof (crh_trust_ge ts eps z s He Hs). unfold y. lra. }
    assert (G : objective ts eps (fst y, snd z) = objective ts eps y + rsum (fun c => rsum (fst y) (sources ts) * (snd z c - snd y c) ^ 2) (claims ts)).
    { rewrite !(complete_objective ts eps _ C). cbn [fst snd].
      assert (Sw : forall h : claim -> R, rsum (fun s => fst y s * rsum (fun c => (h c - vote ts s c) ^ 2) (claims ts)) (sources ts) = rsum (fun c => rsum (fun s => fst y s * (h c - vote ts s c) ^ 2) (sources ts)) (claims ts)).
      { intros h. rewrite rsum_swap. apply rsum_ext. intros s Hs. symmetry. apply rsum_scal. }
      rewrite !Sw. assert (Gs : rsum (fun c => rsum (fun s => fst y s * (snd z c - vote ts s c) ^ 2) (sources ts)) (claims ts) = rsum (fun c => rsum (fun s => fst y s * (snd y c - vote ts s c) ^ 2) (sources ts)) (claims ts) + rsum (fun c => rsum (fst y) (sources ts) * (snd z c - snd y c) ^ 2) (claims ts)); [|lra].
      rewrite <- rsum_plus. apply rsum_ext. intros c' _. unfold y. rewrite !(step_belief ts eps z c'). fold y. apply mean_gain. exact T. }
    assert (P : eps * (snd z c - snd y c) ^ 2 <= rsum (fun c => rsum (fst y) (sources ts) * (snd z c - snd y c) ^ 2) (claims ts)).
    { eapply Rle_trans; [|apply (rsum_ge_In (fun c => rsum (fst y) (sources ts) * (snd z c - snd y c) ^ 2) (claims ts) c)].
      - apply Rmult_le_compat_r; [apply pow2_ge_0|exact T'].
      - intros c' _. apply Rmult_le_pos; [lra|apply pow2_ge_0].
      - exact Hc. }
    lra.
  Qed.
  Lemma beliefs_settle (NE : ts <> []) (C : complete ts) delta : 0 < delta -> exists k, forall c, In c (claims ts) -> Rabs (snd (x (Datatypes.S k)) c - snd (x (Datatypes.S (Datatypes.S k))) c) <= delta.
  Proof.
    intros Hd. destruct (C70_settles b f ts d Hb eps He NE C) as (l & _ & Lo & Up). assert (P : 0 < eps * (delta * delta)) by (apply Rmult_lt_0_compat; nra).
    destruct (Up _ P) as [K HK]. exists K. intros c Hc. destruct (C70_returns b f ts d Hb eps He (Datatypes.S K) NE) as [u Hu]. destruct (C70_returns b f ts d Hb eps He (Datatypes.S (Datatypes.S K)) NE) as [v Hv].
    pose proof (HK _ u (Nat.le_succ_diag_r K) Hu) as Q1. pose proof (Lo _ v (Nat.lt_0_succ _) Hv) as Q2.
    destruct (crh_result_rounds b f ts d Hb eps He _ _ Hu) as (_ & U1 & U2). destruct (crh_result_rounds b f ts d Hb eps He _ _ Hv) as (_ & V1 & V2).
    rewrite (objective_ext ts eps u _ U1 U2) in Q1. rewrite (objective_ext ts eps v _ V1 V2) in Q2. pose proof (drop NE C K c Hc) as Dr.
    set (q := snd (x (Datatypes.S K)) c - snd (x (Datatypes.S (Datatypes.S K))) c) in *. assert (q ^ 2 < delta * delta) by (apply Rmult_lt_reg_l with eps; lra).
    destruct (Rle_or_lt (Rabs q) delta) as [L|L]; [exact L|]. exfalso. rewrite <- (pow2_abs q) in H. nra.
  Qed.

  (** If every source says something about every variable, CRH with a convergence iterator (any of the four measures, any positive
      threshold) returns, provided the limit is large enough. *)
  Theorem C71_terminates p ms thr : ts <> [] -> complete ts -> ms <> BadMeasure -> 0 < thr ->
    exists N, forall clock fuel lim it_n cur lg, (Z.of_nat N < lim)%Z -> (N + 1 < fuel)%nat ->
      exists r o', run clock fuel (AObj (CRH (Fin eps)) p (IConv ms (Fin thr) lim it_n cur) lg) d = (Ok r, o') /\ r_iterations r = Some (Datatypes.S N).
  Proof.
    intros NE C Hm Hthr. pose proof (build_rep _ _ _ _ Hb) as R0. set (a := CRH (Fin eps) : alg XR). pose proof (He : params_ok a) as Hp. pose proof (Logic.I : data_ok ts a) as Hd.
    assert (Hg : good ts a x0) by exact Logic.I.
    set (D k := real_distance ms (sources ts) (fst (x k)) (fst (x (Datatypes.S k)))).
    assert (Ex : exists k, D k < thr).
    { pose proof (n_ge1 (sources ts) (src_ne ts NE)) as n1. pose proof (pos_INR (length (claims ts))) as m0. assert (ee : 0 < eps * eps) by nra.
      set (K1 := n + n / (eps * eps)). assert (K1p : 0 < K1) by (unfold K1; assert (0 < n / (eps * eps)) by (apply Rdiv_lt_0_compat; lra); lra).
      set (eta := Rmin 1 (thr / (2 * K1))). assert (eta_p : 0 < eta) by (unfold eta; apply Rmin_pos; [lra|apply Rdiv_lt_0_compat; lra]).
      set (K2 := 2 * m * (1 + n) / eps). assert (K2p : 0 <= K2) by (unfold K2; apply Rmult_le_pos; [nra|left; now apply Rinv_0_lt_compat]).
      set (delta := eta / (K2 + 1)). assert (dp : 0 < delta) by (unfold delta; apply Rdiv_lt_0_compat; lra).
      destruct (beliefs_settle NE C delta dp) as [k Hk]. exists (Datatypes.S (Datatypes.S k)). unfold D.
      apply Rle_lt_trans with (K1 * eta).
      - apply distance_close; [exact (src_ne ts NE)|exact He|split; [lra|apply Rmin_l]|intros s Hs; now apply crh_trust_ge|intros s Hs; now apply crh_trust_ge|].
        intros s Hs. change (x (Datatypes.S (Datatypes.S (Datatypes.S k)))) with (crh_step ts eps (x (Datatypes.S (Datatypes.S k)))). change (x (Datatypes.S (Datatypes.S k))) with (crh_step ts eps (x (Datatypes.S k))) at 1.
        eapply Rle_trans; [apply (trust_close NE _ _ delta s); [apply (belief_range NE)|apply (belief_range NE)|lra|exact Hk|exact Hs]|].
        fold K2. unfold delta. apply Rmult_le_reg_r with (K2 + 1); [lra|]. replace (K2 * (eta / (K2 + 1)) * (K2 + 1)) with (K2 * eta) by (field; lra). nra.
      - apply Rle_lt_trans with (K1 * (thr / (2 * K1))); [apply Rmult_le_compat_l; [lra|apply Rmin_r]|]. replace (K1 * (thr / (2 * K1))) with (thr / 2) by (field; lra). lra. }
    assert (Least : exists k, D k < thr /\ forall j, (j < k)%nat -> ~ D j < thr).
    { destruct Ex as [k Hk]. revert Hk. induction k as [k IH] using (well_founded_induction lt_wf). intros Hk.
      destruct (Classical_Prop.classic (exists j, (j < k)%nat /\ D j < thr)) as [(j & Hj & Dj)|No]; [exact (IH j Hj Dj)|]. exists k. split; [exact Hk|]. intros j Hj Dj. apply No. eauto. }
    destruct Least as (N & DN & DL). exists N. intros clock fuel lim it_n cur lg Hlim Hf.
    rewrite (run_char clock ts (real_imp f) d R0 NE). pose proof (pack_start b f ts d Hb NE a p Hp) as PS. change (start ts a p) with (Some x0) in PS. rewrite PS. cbn [option_map reset].
    pose proof (pack_cmp b f ts d Hb NE a x0 Hp Hd Hg) as Cm.
    rewrite (it_loop_conv_stop (cmp1 a d (denote ts x0)) (cmp2 a d (denote ts x0)) (stops a d (denote ts x0)) ms (Fin thr) lim fuel N (fun j => Fin (D j))).
    - rewrite (proj1 (pack_scores b f ts d Hb NE a x0 Hp Hd Hg (Datatypes.S N))). cbn [final]. eexists. eexists. split; [reflexivity|]. reflexivity.
    - intros j. destruct (Cm j) as (-> & -> & _). exact (get_distance_real ms (sources ts) _ _ (src_ne ts NE) Hm).
    - intros j. apply Cm.
    - exact Hlim.
    - intros j Hj. change (rltb (D j) thr = false). destruct (rltb_spec (D j) thr); [exfalso; now apply (DL j Hj)|reflexivity].
    - change (rltb (D N) thr = true). now apply rltb_true.
    - exact Hf.
  Qed.
End C71.

(** Non-vacuity: three sources, two variables, every source answers both; the L2 norm and the default threshold 0.0001 *)
Module CRHStopExamples.
  Definition full : list (nat * nat * nat) := [(1, 0, 1); (2, 0, 1); (3, 0, 2); (1, 7, 4); (2, 7, 5); (3, 7, 5)]%nat.
  Example complete_full : complete full.
  Proof. intros s x Hs Hx. cbn in Hs, Hx. destruct Hx as [<-|[<-|[]]]; destruct Hs as [<-|[<-|[<-|[]]]]; reflexivity. Qed.
  Example full_stops : exists d, build false (real_imp None) full = Ok d /\ exists lim fuel r, fst (run (fun _ => Fin 0) fuel (AObj (CRH (Fin (1/100000))) FIXED (mk_conv L2 None (Some lim)) None) d) = Ok r.
  Proof.
    assert (ND : NoDup (sv_pairs full)) by (unfold full, sv_pairs; cbn; repeat constructor; cbn; intuition congruence).
    destruct (AlgExamples.strict_builds full ND) as [d E]. exists d. split; [exact E|].
    destruct (C71_terminates false None full d E (1/100000) ltac:(lra) FIXED L2 (1/10000) ltac:(discriminate) complete_full ltac:(discriminate) ltac:(lra)) as [N K].
    destruct (K (fun _ => Fin 0) (N + 2)%nat (Z.of_nat N + 1)%Z 0%nat None None ltac:(lia) ltac:(lia)) as (r & o' & Hr & _). exists (Z.of_nat N + 1)%Z, (N + 2)%nat, r.
    assert (L : @lit XR 1 10000 = Fin (1 / 10000)). { unfold lit. cbn [n_div XR n_ofZ]. rewrite xdiv_fin by lra. reflexivity. }
    unfold mk_conv. rewrite L. exact (f_equal fst Hr).
  Qed.
End CRHStopExamples.
