(** C62 does not hold for CRH: unrelated data can turn a comparison round.  Exact arithmetic. *)
From Coq Require Import Reals Lra.
From Verif Require Import Base Num Sparse Spec SpecAlg Dataset DatasetProofs DatasetRep Iterators Algorithms Driver Rounds
  AlgRep AlgRounds AlgTF AlgPack Local PropsData PropsIter PropsRun PropsAlg PropsLocal PropsCRH.
Local Open Scope R_scope.

(** Source 1 says x0 = 1, sources 2 and 3 say x0 = 2 and contradict each other about four other variables. *)
Definition quarrel : list (nat * nat * nat) :=
  [(1, 0, 1); (2, 0, 2); (3, 0, 2); (2, 1, 0); (3, 1, 1); (2, 2, 0); (3, 2, 1); (2, 3, 0); (3, 3, 1); (2, 4, 0); (3, 4, 1)]%nat.
(** Source 4 says something about ten further variables. *)
Definition further : list (nat * nat * nat) := map (fun i => (4, 10 + i, 0)%nat) (seq 0 10).

(** the beliefs after one round *)
Lemma crh_round1 ts d eps : build false (real_imp None) ts = Ok d -> ts <> [] -> 0 < eps ->
  let x0 := ((fun _ : nat => 0), (fun c : nat * nat => n_supporters ts c / INR (length (sources ts)))) in
  exists r o, run (fun _ => Fin 0) 9 (AObj (CRH (Fin eps)) FIXED (IFixed 1 0) None) d = (Ok r, o) /\
    0 < rsum (fst (crh_step ts eps x0)) (sources ts) /\
    forall c, In c (claims ts) -> belief_of r c = Some (Fin (rsum (fun s => fst (crh_step ts eps x0) s * vote ts s c) (sources ts) / rsum (fst (crh_step ts eps x0)) (sources ts))).
Proof.
  intros Hb NE He x0.
  destruct (C28_fixed_returns false (real_imp None) ts d Hb (fun _ => Fin 0) 9 (CRH (Fin eps)) FIXED 1 0 None NE ltac:(discriminate) ltac:(discriminate) ltac:(cbn; lia)) as [r Hr].
  destruct (run (fun _ => Fin 0) 9 (AObj (CRH (Fin eps)) FIXED (IFixed 1 0) None) d) as [q o] eqn:Er. cbn [fst] in Hr. subst q. exists r, o. split; [reflexivity|]. split; [exact (step_total ts NE eps He x0)|].
  destruct (C39_crh_recurrence false None ts d Hb (fun _ => Fin 0) 9 eps FIXED (IFixed 1 0) None r o He Er) as (k & Hk & Rp).
  assert (Ek : r_iterations r = Some 1%nat).
  { apply (run_fixed_full false None ts d Hb (fun _ => Fin 0) 9 (CRH (Fin eps)) FIXED 1 0 None r o x0 (crh_step ts eps) (fun _ => True)); [discriminate| |exact Logic.I| |exact Er].
    - apply (init_start false None ts d Hb); [exact NE|exact Logic.I|reflexivity].
    - intros x NE' _. split; [|exact Logic.I]. rewrite (crh_round ts _ d (build_rep _ _ _ _ Hb) NE' eps x He). eauto. }
  rewrite Ek in Hk. injection Hk as <-. intros c Hc. refine (eq_trans (reports_belief ts r _ c Rp Hc) _). cbn [rounds]. f_equal. f_equal. apply step_belief.
Qed.
Lemma ln_ratio a s : 0 < a -> 0 < s -> ln (a / s) = ln a - ln s.
Proof. intros Ha Hs. unfold Rdiv. rewrite ln_mult by (try apply Rinv_0_lt_compat; assumption). rewrite ln_Rinv by assumption. ring. Qed.

Theorem C62_crh_not_local eps : 0 < eps <= 1/100 ->
  exists d d' r r' o o', build false (real_imp None) quarrel = Ok d /\ build false (real_imp None) (quarrel ++ further) = Ok d' /\
    same_claims quarrel (quarrel ++ further) /\ unrelated quarrel (quarrel ++ further) /\
    run (fun _ => Fin 0) 9 (AObj (CRH (Fin eps)) FIXED (IFixed 1 0) None) d = (Ok r, o) /\
    run (fun _ => Fin 0) 9 (AObj (CRH (Fin eps)) FIXED (IFixed 1 0) None) d' = (Ok r', o') /\
    exists u1 u2 v1 v2, belief_of r (0, 1)%nat = Some (Fin u1) /\ belief_of r (0, 2)%nat = Some (Fin u2) /\ u2 < u1 /\
      belief_of r' (0, 1)%nat = Some (Fin v1) /\ belief_of r' (0, 2)%nat = Some (Fin v2) /\ v1 < v2.
Proof.
  intros [He Hs].
  assert (N1 : NoDup (sv_pairs quarrel)) by (unfold quarrel, sv_pairs; cbn; repeat constructor; cbn; intuition congruence).
  assert (N2 : NoDup (sv_pairs (quarrel ++ further))) by (unfold quarrel, further, sv_pairs; cbn; repeat constructor; cbn; intuition congruence).
  destruct (AlgExamples.strict_builds quarrel N1) as [d Hb]. destruct (AlgExamples.strict_builds (quarrel ++ further) N2) as [d' Hb'].
  destruct (crh_round1 quarrel d eps Hb ltac:(discriminate) He) as (r & o & Er & Tp & Br). destruct (crh_round1 (quarrel ++ further) d' eps Hb' ltac:(discriminate) He) as (r' & o' & Er' & Tp' & Br').
  exists d, d', r, r', o, o'. split; [exact Hb|]. split; [exact Hb'|]. split; [|split; [|split; [exact Er|split; [exact Er'|]]]].
  { apply C62_union.
    - change (sources quarrel) with [1; 2; 3]%nat. change (sources further) with [4]%nat. cbn. intuition congruence.
    - change (variables quarrel) with [0; 1; 2; 3; 4]%nat. change (variables further) with [10; 11; 12; 13; 14; 15; 16; 17; 18; 19]%nat. cbn. intuition congruence. }
  { apply C62_union.
    - change (sources quarrel) with [1; 2; 3]%nat. change (sources further) with [4]%nat. cbn. intuition congruence.
    - change (variables quarrel) with [0; 1; 2; 3; 4]%nat. change (variables further) with [10; 11; 12; 13; 14; 15; 16; 17; 18; 19]%nat. cbn. intuition congruence. }
  eexists _, _, _, _. split; [apply Br; apply mem_In; reflexivity|]. split; [apply Br; apply mem_In; reflexivity|]. split; [|split; [apply Br'; apply mem_In; reflexivity|split; [apply Br'; apply mem_In; reflexivity|]]].
  - clear - He Hs Tp. apply Rmult_lt_compat_r; [apply Rinv_0_lt_compat; exact Tp|]. clear Tp.
    set (x0 := ((fun _ : nat => 0), (fun c : nat * nat => n_supporters quarrel c / INR (length (sources quarrel))))).
    assert (D1 : deviation quarrel (snd x0) 1%nat = 8/9) by (unfold deviation, x0; cbn; field).
    assert (D2 : deviation quarrel (snd x0) 2%nat = 22/9) by (unfold deviation, x0; cbn; field).
    assert (D3 : deviation quarrel (snd x0) 3%nat = 22/9) by (unfold deviation, x0; cbn; field).
    pose proof (step_trust quarrel eps x0 1%nat ltac:(apply mem_In; reflexivity)) as T1. pose proof (step_trust quarrel eps x0 2%nat ltac:(apply mem_In; reflexivity)) as T2. pose proof (step_trust quarrel eps x0 3%nat ltac:(apply mem_In; reflexivity)) as T3.
    set (t := fst (crh_step quarrel eps x0)) in *. clearbody t. set (dev := deviation quarrel (snd x0)) in *. clearbody dev.
    change (sources quarrel) with [1; 2; 3]%nat in *. cbn [rsum] in *. unfold vote. cbn.
    rewrite D1, D2, D3 in *. set (sm := eps + 8/9 + (eps + 22/9 + (eps + 22/9 + 0))) in *. assert (Es : sm = 52/9 + 3 * eps) by (unfold sm; lra). clearbody sm.
    rewrite ln_ratio in T1, T2, T3 by lra. cut (eps + ln (eps + 8/9) + ln sm < ln (eps + 22/9) + ln (eps + 22/9)); [lra|].
    rewrite <- (ln_mult (eps + 22/9)) by lra. rewrite Rplus_assoc, <- ln_mult by lra. rewrite <- (ln_exp eps) at 1. rewrite <- ln_mult; [|apply exp_pos|apply Rmult_lt_0_compat; lra].
    apply ln_increasing; [apply Rmult_lt_0_compat; [apply exp_pos|apply Rmult_lt_0_compat; lra]|].
    assert (X : exp eps <= 100/99).
    { pose proof (exp_ineq1_le (- eps)) as X. rewrite exp_Ropp in X. pose proof (exp_pos eps) as P. assert (Q : exp eps * / exp eps = 1) by (apply Rinv_r; lra). nra. }
    apply Rle_lt_trans with (100/99 * ((eps + 8/9) * sm)); [apply Rmult_le_compat_r; [apply Rmult_le_pos; lra|exact X]|]. rewrite Es. nra.
  - clear - He Hs Tp'. apply Rmult_lt_compat_r; [apply Rinv_0_lt_compat; exact Tp'|]. clear Tp'.
    set (ts := quarrel ++ further) in *. set (x0 := ((fun _ : nat => 0), (fun c : nat * nat => n_supporters ts c / INR (length (sources ts))))).
    assert (D1 : deviation ts (snd x0) 1%nat = 13/16) by (unfold deviation, x0; cbn; field).
    assert (D2 : deviation ts (snd x0) 2%nat = 45/16) by (unfold deviation, x0; cbn; field).
    assert (D3 : deviation ts (snd x0) 3%nat = 45/16) by (unfold deviation, x0; cbn; field).
    assert (D4 : deviation ts (snd x0) 4%nat = 90/16) by (unfold deviation, x0; cbn; field).
    pose proof (step_trust ts eps x0 1%nat ltac:(apply mem_In; reflexivity)) as T1. pose proof (step_trust ts eps x0 2%nat ltac:(apply mem_In; reflexivity)) as T2.
    pose proof (step_trust ts eps x0 3%nat ltac:(apply mem_In; reflexivity)) as T3.
    set (t := fst (crh_step ts eps x0)) in *. clearbody t. set (dev := deviation ts (snd x0)) in *. clearbody dev.
    change (sources ts) with [1; 2; 3; 4]%nat in *. cbn [rsum] in *. unfold vote. cbn.
    rewrite D1, D2, D3, D4 in *. set (sm := eps + 13/16 + (eps + 45/16 + (eps + 45/16 + (eps + 90/16 + 0)))) in *. assert (Es : sm = 193/16 + 4 * eps) by (unfold sm; lra). clearbody sm.
    rewrite ln_ratio in T1, T2, T3 by lra. cut (ln (eps + 45/16) + ln (eps + 45/16) < eps + ln (eps + 13/16) + ln sm); [lra|].
    rewrite <- (ln_mult (eps + 45/16)) by lra. rewrite Rplus_assoc, <- ln_mult by lra.
    apply Rlt_trans with (ln ((eps + 13/16) * sm)); [|lra]. apply ln_increasing; [apply Rmult_lt_0_compat; lra|]. rewrite Es. nra.
Qed.
