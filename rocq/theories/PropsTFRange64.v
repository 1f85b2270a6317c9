(** C103: TruthFinder in double arithmetic stays in range when the shares of no source overshoot. *)
From Coq Require Import Reals Lra.
From Flocq Require Import Core IEEE754.BinarySingleNaN.
From Verif Require Import Base Num Sparse Spec SpecAlg Dataset DatasetProofs DatasetRep Iterators Algorithms Driver Rounds Ranking
  AlgRep AlgTF PropsData PropsIter PropsRun PropsAlg Float PropsFloat PropsVote64 PropsTF64 PropsAvlog64 PropsCrh64 Mono64 PropsAccuracy.
Local Open Scope R_scope.

(** What is assumed of the C library's exp: the exponential of a number that is not positive is a number between 0 and 1. *)
Definition usable_exp (L : libm) : Prop := forall x, is_finite x = true -> B2R64 x <= 0 -> double_in 0 1 (lm_exp L x).
(** n copies of 1/n, added up in doubles, are not more than 1 *)
Definition safe (n : nat) : bool := Bleb (sum_of_shares n) (ofZ64 1).
(** All numbers up to 40 except 9, 11, 18, 20, 21, 25, 35, 36, 39 and 40 *)
Theorem C103_safe_numbers : filter safe (seq 1 40) =
  [1; 2; 3; 4; 5; 6; 7; 8; 10; 12; 13; 14; 15; 16; 17; 19; 22; 23; 24; 26; 27; 28; 29; 30; 31; 32; 33; 34; 37; 38]%nat.
Proof. vm_compute. reflexivity. Qed.

(** ** arithmetic *)
Lemma below_one q : generic_format radix2 fexp64 q -> q < 1 -> q <= 1 - bpow radix2 (-53).
Proof.
  intros Hq H. pose proof (pred_ge_gt radix2 fexp64 q 1 Hq fmt_1 H) as P. change 1 with (bpow radix2 0) in P at 1. rewrite pred_bpow in P. exact P.
Qed.
Lemma one_minus t : within 0 1 t -> Beqb t (ofZ64 1) = false -> double_in (bpow radix2 (-900)) 1 (Bminus mode_NE (ofZ64 1) t).
Proof.
  intros (q & Ht & Hq) Hn. apply within_double. destruct Ht as [Ft Et].
  assert (N1 : q <> 1).
  { intros E1. destruct one64 as [F1 E2]. rewrite (Beqb_correct 53 1024 t (ofZ64 1) Ft F1) in Hn. change (B2R (ofZ64 1)) with (B2R64 (ofZ64 1)) in Hn. change (B2R t) with (B2R64 t) in Hn. rewrite Et, E2, E1, Req_bool_true in Hn by reflexivity. discriminate. }
  assert (Fq : generic_format radix2 fexp64 q) by (rewrite <- Et; apply fmt).
  pose proof (below_one q Fq ltac:(lra)) as Lq.
  destruct one64 as [F1 E2]. pose proof (Bminus_correct 53 1024 _ _ mode_NE (ofZ64 1) t F1 Ft) as C. change (B2R (ofZ64 1)) with (B2R64 (ofZ64 1)) in C. change (B2R t) with (B2R64 t) in C. rewrite Et, E2 in C.
  assert (B : rnd (1 - q) <= 1) by (apply rnd_le_fmt; [exact fmt_1|lra]). assert (B' : bpow radix2 (-53) <= rnd (1 - q)) by (apply rnd_ge_fmt; [apply fmt_bpow; lia|lra]).
  change (Generic_fmt.round radix2 (SpecFloat.fexp 53 1024) (round_mode mode_NE) (1 - q)) with (rnd (1 - q)) in C.
  pose proof (bpow_gt_0 radix2 (-53)) as P. rewrite Rlt_bool_true in C by (rewrite Rabs_pos_eq by lra; apply Rle_lt_trans with (bpow radix2 0); [exact B|apply bpow_lt; lia]).
  destruct C as (C1 & C2 & _). exists (rnd (1 - q)). split; [split; [exact C2|exact C1]|].
  assert (bpow radix2 (-900) <= bpow radix2 (-53)) by (apply bpow_le; lia). lra.
Qed.
(** 1 / (1 + e) *)
Lemma logistic e : double_in 0 1 e -> within (1/2) 1 (Bdiv mode_NE (ofZ64 1) (Bplus mode_NE (ofZ64 1) e)).
Proof.
  intros He. apply within_double in He. destruct He as (x & Hx & Bx).
  assert (F2 : generic_format radix2 fexp64 2) by (change 2 with (bpow radix2 1); apply fmt_bpow; lia).
  assert (L2 : 2 < bpow radix2 1024) by (change 2 with (bpow radix2 1); apply bpow_lt; lia).
  pose proof (add64 _ _ 1 x 2 one64 Hx ltac:(lra) ltac:(lra) F2 ltac:(lra) L2) as A.
  assert (A1 : 1 <= rnd (1 + x)) by (apply rnd_ge_fmt; [exact fmt_1|lra]). assert (A2 : rnd (1 + x) <= 2) by (apply rnd_le_fmt; [exact F2|lra]).
  destruct (div_up64 _ _ 1 _ 0 0 one64 A) as (D1 & D2); [change (bpow radix2 0) with 1; lra|change (bpow radix2 0) with 1; lra|lia|].
  change (bpow radix2 (0 - 0)) with 1 in D2. exists (rnd (1 / rnd (1 + x))). split; [exact D1|]. split; [|apply D2].
  assert (H : bpow radix2 (0 - 1) <= rnd (1 / rnd (1 + x))) by (apply div_low; [change (bpow radix2 0) with 1; lra|change (bpow radix2 1) with 2; lra|lia]).
  change (bpow radix2 (0 - 1)) with (/ 2) in H. lra.
Qed.
(** a share of a belief between 0 and 1 is not more than the share *)
Lemma share_le s q b : isf s q -> 0 < q -> within 0 1 b -> nneg (Bmult mode_NE s b) /\ le64 (Bmult mode_NE s b) s.
Proof.
  intros Hs P (r & Hb & Br).
  assert (Q0 : 0 <= q * r) by (apply Rmult_le_pos; lra).
  assert (Q1 : q * r <= q) by (rewrite <- (Rmult_1_r q) at 2; apply Rmult_le_compat_l; lra).
  assert (Lq : q < bpow radix2 1024).
  { destruct Hs as [Fs <-]. rewrite <- (Rabs_pos_eq (B2R64 s)) by lra. apply abs_B2R_lt_emax. }
  pose proof (mul64 _ _ q r q Hs Hb Q0 (isf_fmt _ _ Hs) Q1 Lq) as M.
  assert (R0 : 0 <= rnd (q * r)) by (apply rnd_ge_fmt; [exact fmt_0|exact Q0]).
  split; [exact (nneg_fin _ _ M R0)|]. apply (le_fin _ _ _ _ M Hs). apply rnd_le_fmt; [exact (isf_fmt _ _ Hs)|exact Q1].
Qed.
Lemma sum_below {A} (h : A -> b64) (s : b64) (l : list A) : nneg s -> (forall x, In x l -> nneg (h x) /\ le64 (h x) s) -> forall a a', nneg a -> nneg a' -> le64 a a' ->
  nneg (fold_left (Bplus mode_NE) (map h l) a) /\ le64 (fold_left (Bplus mode_NE) (map h l) a) (fold_left (Bplus mode_NE) (repeat s (length l)) a').
Proof.
  intros Ps. induction l as [|x l IH]; intros H a a' Pa Pa' Ha; [cbn; auto|]. cbn [map fold_left repeat length].
  destruct (H x (or_introl eq_refl)) as [N Le]. apply IH; [intros y Hy; apply H; now right|now apply plus_nneg|now apply plus_nneg|now apply plus_mono].
Qed.

Section C103.
  Context {S V W : Type} {ES : Eqb S} {EV : Eqb V} {EW : Eqb W}.
  Variable L : libm.
  Hypothesis Log : usable_log L.
  Hypothesis Exp : usable_exp L.
  Notation F := (B64 L).
  Notation data := (dataset S V W F).
  Notation claim := (V * W)%type.
  Notation result := (result S V W b64).
  Variables (b : bool) (ts : list (S * V * W)) (d : data).
  Hypothesis Hb : build (F:=F) b None ts = Ok d.
  Let R0 : ds_rep (F:=F) ts None d := build_rep _ _ _ _ Hb.
  Hypothesis Small_s : (Z.of_nat (length (sources ts)) <= 2 ^ 53)%Z.
  Hypothesis Small_c : (Z.of_nat (length (claims ts)) <= 2 ^ 53)%Z.
  (** the number of claims of every source is a safe one *)
  Hypothesis Safe : forall s, In s (sources ts) -> safe (length (claims_of ts s)) = true.
  (** the parameters *)
  Variables (rho gamma t0 : b64) (g0 q0 : R).
  Hypothesis Hgamma : isf gamma g0.
  Hypothesis Bgamma : 0 <= g0 <= 1.
  Hypothesis Ht0 : isf t0 q0.
  Hypothesis Bt0 : 0 <= q0 <= 1.
  Notation a := (TruthFinder (F:=b64) rho gamma t0).

  Notation nclaims s := (length (claims_of ts s)).
  Notation share s := (Bdiv mode_NE (ofZ64 1) (ofZ64 (Z.of_nat (nclaims s)))).
  Lemma few_claims s : (nclaims s <= length (claims ts))%nat. Proof. unfold claims_of. apply few_len. Qed.
  Lemma some_claims s : In s (sources ts) -> (0 < nclaims s)%nat.
  Proof.
    intros Hs. destruct (claims_of_ne ts s Hs) as (c & Hi). destruct (claims_of ts s); [destruct Hi|cbn; lia].
  Qed.
  Lemma count_s s : isf (ofZ64 (Z.of_nat (nclaims s))) (INR (nclaims s)).
  Proof. rewrite INR_IZR_INZ. apply ofZ64_isf. pose proof (few_claims s). lia. Qed.
  Lemma counts_s : claim_counts (F:=F) d = map (fun s => ofZ64 (Z.of_nat (nclaims s))) (sources ts).
  Proof.
    unfold claim_counts. rewrite (rep_nc _ _ _ R0), (ones64 L). refine (eq_trans (sc64 L b None ts d Hb (fun _ => ofZ64 1)) _). apply map_ext_in. intros s Hs. unfold tb64.
    pose proof (some_claims s Hs) as Pn. pose proof (few_claims s) as Fn.
    apply (isf_pos_inj _ _ (INR (nclaims s))).
    - apply (count_exact (claims_of ts s) 0); [cbn [Nat.add]; lia|exact zero64].
    - apply count_s.
    - apply not_0_INR. lia.
  Qed.
  Definition ta64 (g : claim -> b64) (s : S) : b64 :=
    fold_left (Bplus mode_NE) (map (fun c => Bmult mode_NE (Bmult mode_NE (ofZ64 1) (share s)) (g c)) (claims_of ts s)) (ofZ64 0).
  Lemma A_mv_s g : mv (F:=F) (tf_a_mat (F:=F) d) (map g (claims ts)) = map (ta64 g) (sources ts).
  Proof.
    unfold tf_a_mat. rewrite counts_s. unfold sdivv. rewrite map_map.
    pose proof (mrep_tr _ _ _ _ _ (mmulc_rep (F:=F) _ _ _ _ _ (fun s => share s) (mrep_tr _ _ _ _ _ (rep_sc _ _ _ R0)))) as M.
    exact (mv_rep (F:=F) _ _ _ _ _ g M).
  Qed.
  Lemma B_mv_s tau : mv (F:=F) (tf_b_mat (F:=F) rho d) (map tau (sources ts)) = map (tt64 ts tau) (claims ts).
  Proof. rewrite (mv_rep (F:=F) _ _ _ _ _ tau (tfB_none (F:=F) ts d R0 rho)). reflexivity. Qed.
  Lemma share_s s : In s (sources ts) -> exists q, isf (Bmult mode_NE (ofZ64 1) (share s)) q /\ 0 < q /\ Bmult mode_NE (ofZ64 1) (share s) = share s.
  Proof.
    intros Hs. pose proof (some_claims s Hs) as Pn. pose proof (few_claims s) as Fn.
    assert (P : 1 <= INR (nclaims s)) by (apply (le_INR 1); lia).
    destruct (div_up64 _ _ 1 _ 0 0 one64 (count_s s)) as (D1 & D2); [change (bpow radix2 0) with 1; lra|exact P|lia|].
    assert (P2 : INR (nclaims s) <= bpow radix2 53) by (rewrite INR_IZR_INZ; apply (IZR_le _ (2 ^ 53)); lia).
    assert (D3 : bpow radix2 (0 - 53) <= rnd (1 / INR (nclaims s))) by (apply div_low; [change (bpow radix2 0) with 1; lra|lra|lia]).
    pose proof (bpow_gt_0 radix2 (0 - 53)) as D4. pose proof (one_mul64 _ _ D1 ltac:(lra)) as M.
    exists (rnd (1 / INR (nclaims s))). split; [exact M|]. split; [lra|]. apply (isf_pos_inj _ _ _ M D1). lra.
  Qed.
  Definition unit_trust (t : S -> b64) : Prop := forall s, In s (sources ts) -> within 0 1 (t s).
  Definition half_belief (g : claim -> b64) : Prop := forall c, In c (claims ts) -> within (1/2) 1 (g c).
  Lemma trust_unit g : half_belief g -> unit_trust (ta64 g).
  Proof.
    intros Hg s Hs. destruct (share_s s Hs) as (q & Hq & P & E). pose proof (Safe s Hs) as Sf. unfold safe in Sf.
    assert (Nn : nneg (share s)) by (rewrite <- E; exact (nneg_fin _ _ Hq ltac:(lra))).
    destruct (sum_below (fun c => Bmult mode_NE (Bmult mode_NE (ofZ64 1) (share s)) (g c)) (share s) (claims_of ts s) Nn) with (a := ofZ64 0) (a' := ofZ64 0) as (N & Le); try reflexivity.
    - intros c Hc. assert (Hc' : In c (claims ts)) by (unfold claims_of in Hc; apply filter_In in Hc; tauto). destruct (Hg c Hc') as (r & Hr & Br).
      rewrite E. rewrite E in Hq. apply (share_le _ q _ Hq P). exists r. split; [exact Hr|lra].
    - fold (ta64 g s) in N, Le. change (fold_left (Bplus mode_NE) (repeat (share s) (nclaims s)) (ofZ64 0)) with (sum_of_shares (nclaims s)) in Le.
      assert (N2 : nneg (sum_of_shares (nclaims s))).
      { destruct (sum_below (fun _ : claim => share s) (share s) (claims_of ts s) Nn) with (a := ofZ64 0) (a' := ofZ64 0) as (N2 & _); try reflexivity.
        - intros _ _. split; [exact Nn|]. now apply le_refl64.
        - unfold sum_of_shares. rewrite (repeat_map (share s) (claims_of ts s)). exact N2. }
      assert (N1 : nneg (ofZ64 1)) by (apply (nneg_fin _ 1 one64); lra).
      pose proof (le_trans64 _ _ _ N N2 N1 Le Sf) as Le1. apply (le_cases _ _ N N1) in Le1. destruct Le1 as [Q|(x & y & Hx & Hy & Lxy)]; [discriminate|].
      rewrite (isf_fun _ _ _ Hy one64) in Lxy. exists x. split; [exact Hx|]. split; [|exact Lxy].
      apply (le_fin _ _ _ _ zero64 Hx). exact N.
  Qed.
  Definition tau64 (t : S -> b64) (s : S) : b64 := Bopp (lm_ln L (Bminus mode_NE (ofZ64 1) (t s))).
  Definition bel64 (t : S -> b64) (c : claim) : b64 := Bdiv mode_NE (ofZ64 1) (Bplus mode_NE (ofZ64 1) (lm_exp L (Bmult mode_NE (Bopp gamma) (tt64 ts (tau64 t) c)))).
  Lemma belief_half t : unit_trust t -> (forall s, In s (sources ts) -> Beqb (t s) (ofZ64 1) = false) -> half_belief (bel64 t).
  Proof.
    intros Ht Hn c Hc. apply logistic.
    assert (T : forall s, In s (sources ts) -> within 0 (bpow radix2 10) (tau64 t s)).
    { intros s Hs. pose proof (Log _ (one_minus (t s) (Ht s Hs) (Hn s Hs))) as D. apply within_double in D. destruct D as (l & [Fl El] & Bl).
      exists (- l). split; [split; [unfold tau64; now rewrite is_finite_Bopp|unfold tau64; rewrite <- El; apply B2R_Bopp]|]. change (bpow radix2 10) with 1024. lra. }
    assert (Fs : (length (supporters ts c) <= length (sources ts))%nat) by (unfold supporters; apply few_len).
    destruct (rowsum64 10 (tau64 t) (supporters ts c)) as (r & Hr & Br & _); [lia|lia|intros s Hs; apply T; unfold supporters in Hs; apply filter_In in Hs; tauto|].
    fold (tt64 ts (tau64 t) c) in Hr. pose proof (INR_few _ 10 (Z.le_trans _ _ _ (proj1 (Nat2Z.inj_le _ _) Fs) Small_s)) as U. change (10 + 53)%Z with 63%Z in U.
    assert (Og : isf (Bopp gamma) (- g0)) by (destruct Hgamma as [Fg <-]; split; [now rewrite is_finite_Bopp|apply B2R_Bopp]).
    assert (Q0 : 0 <= g0 * r) by (apply Rmult_le_pos; lra).
    assert (Q1 : g0 * r <= bpow radix2 63) by (apply Rle_trans with (1 * r); [apply Rmult_le_compat_r; lra|lra]).
    pose proof (mul64_neg _ _ g0 r (bpow radix2 63) Og Hr Q0 (fmt_bpow 63 ltac:(lia)) Q1 ltac:(apply bpow_lt; lia)) as [Fm Em].
    apply Exp; [exact Fm|]. rewrite Em. assert (0 <= rnd (g0 * r)) by (apply rnd_ge_fmt; [exact fmt_0|exact Q0]). lra.
  Qed.
  (** one round: no effect if a trust is 1, else the formulas *)
  Lemma tf_round64 t bel : round (F:=F) a d (map t (sources ts), bel) =
    if existsb (fun s => Beqb (t s) (ofZ64 1)) (sources ts) then UBreak (F:=F)
    else UNext (F:=F) (map (ta64 (bel64 t)) (sources ts)) (map t (sources ts)) (map (ta64 (bel64 t)) (sources ts), map (bel64 t) (claims ts)).
  Proof.
    cbn [round]. unfold tf_upd, get_log_trust.
    assert (X : existsb (fun x => @n_eqb F x (n_ofZ 1)) (map t (sources ts)) = existsb (fun s => Beqb (t s) (ofZ64 1)) (sources ts)).
    { generalize (sources ts). intros l. induction l as [|s l IH]; [reflexivity|]. cbn [map existsb]. f_equal. exact IH. }
    rewrite X. destruct (existsb _ (sources ts)); [reflexivity|]. rewrite map_map. cbv zeta.
    change (fun x : S => @n_opp F (@n_ln F (@n_sub F (@n_ofZ F 1) (t x)))) with (tau64 t).
    rewrite B_mv_s, map_map.
    change (fun x : claim => @n_div F (@n_ofZ F 1) (@n_add F (@n_ofZ F 1) (@n_exp F (@n_mul F (@n_opp F gamma) (tt64 ts (tau64 t) x))))) with (bel64 t).
    rewrite A_mv_s. reflexivity.
  Qed.
  Lemma tf_scores64 p x0 : init (F:=F) a p d = Some x0 -> forall k,
    exists t g, scores (F:=F) a d x0 k = (map t (sources ts), map g (claims ts)) /\ unit_trust t /\ (forall c, In c (claims ts) -> within 0 1 (g c)) /\
      (k <> 0%nat -> q0 <> 1 -> half_belief g).
  Proof.
    intros E0. cbn [init] in E0. injection E0 as E0'. subst x0.
    assert (Up : forall g, half_belief g -> forall c, In c (claims ts) -> within 0 1 (g c)) by (intros g Hg c Hc; destruct (Hg c Hc) as (r & Hr & Br); exists r; split; [exact Hr|lra]).
    assert (Two : forall k, exists t g, scores (F:=F) a d (vfull (F:=F) (num_sources d) t0, vzeros (F:=F) (num_claims d)) k = (map t (sources ts), map g (claims ts)) /\ unit_trust t /\
      ((t = (fun _ => t0) /\ g = (fun _ => ofZ64 0) /\ (k = 0%nat \/ q0 = 1)) \/ half_belief g)).
    { induction k as [|k (t & g & E & Ht & C)].
      - exists (fun _ => t0), (fun _ => ofZ64 0). split; [|split; [intros s _; exists q0; auto|left; auto]].
        cbn [scores]. f_equal; [rewrite (rep_ns _ _ _ R0)|rewrite (rep_nc _ _ _ R0)]; unfold vfull, vzeros; apply (repeat_map (A:=_)).
      - cbn [scores]. rewrite E, tf_round64. destruct (existsb _ (sources ts)) eqn:X.
        + exists t, g. split; [reflexivity|]. split; [exact Ht|]. destruct C as [(-> & -> & C)|C]; [left|right; exact C].
          split; [reflexivity|]. split; [reflexivity|]. right. apply existsb_exists in X. destruct X as (s & _ & X). destruct Ht0 as [Ft Et]. destruct one64 as [F1 E1].
          rewrite (Beqb_correct 53 1024 t0 (ofZ64 1) Ft F1) in X. change (B2R (ofZ64 1)) with (B2R64 (ofZ64 1)) in X. change (B2R t0) with (B2R64 t0) in X. rewrite Et, E1 in X.
          destruct (Req_bool_spec q0 1); [assumption|discriminate].
        + assert (Hn : forall s, In s (sources ts) -> Beqb (t s) (ofZ64 1) = false).
          { intros s Hs. destruct (Beqb (t s) (ofZ64 1)) eqn:Q; [|reflexivity]. rewrite <- X. symmetry. apply existsb_exists. eauto. }
          pose proof (belief_half t Ht Hn) as Hh. exists (ta64 (bel64 t)), (bel64 t). split; [reflexivity|]. split; [now apply trust_unit|now right]. }
    intros k. destruct (Two k) as (t & g & E & Ht & C). exists t, g. split; [exact E|]. split; [exact Ht|]. destruct C as [(-> & -> & C)|C].
    - split; [intros c _; exists 0; split; [exact zero64|lra]|]. intros H1 H2. destruct C; congruence.
    - split; [now apply Up|]. auto.
  Qed.

  (** every trust and every belief in the result is a number in [0,1]; every belief is at least lo *)
  Definition in_range (lo : R) (r : result) : Prop :=
    (forall s v, trust_of r s = Some v -> double_in 0 1 v) /\ (forall c v, belief_of r c = Some v -> double_in lo 1 v).
  Lemma range_intro lo r t g : reports ts r t g -> unit_trust t -> (forall c, In c (claims ts) -> within lo 1 (g c)) -> in_range lo r.
  Proof.
    intros (Ra & Rb & _) Ht Hg. split.
    - intros s v. rewrite Ra. destruct (mem s (sources ts)) eqn:E; [|discriminate]. intros [= <-]. apply mem_In in E. apply within_double. auto.
    - intros c v. rewrite Rb. destruct (mem c (claims ts)) eqn:E; [|discriminate]. intros [= <-]. apply mem_In in E. apply within_double. auto.
  Qed.
  Theorem C103_tf_float clock fuel p it lg r o' : run (F:=F) clock fuel (AObj (F:=F) a p it lg) d = (Ok r, o') ->
    in_range 0 r /\ (forall k, r_iterations r = Some k -> k <> 0%nat -> q0 <> 1 -> in_range (1/2) r).
  Proof.
    intros H. apply (run_cases b None ts d Hb) in H. destruct H as (NE & x0 & k & it' & E0 & El & x & Ef & ->).
    destruct (tf_scores64 p x0 E0 k) as (t & g & E & Ht & Hg & Hh).
    apply (final_ok (F:=F) a it' _ x) in Ef; [|discriminate]. rewrite E in Ef. subst x. cbn [fst snd].
    split; [|intros k' Hk Hk0 Hq; cbn in Hk; injection Hk as <-]; apply (range_intro _ _ t g); auto; try (apply (reports64 L); reflexivity).
    exact (Hh Hk0 Hq).
  Qed.
  (** all the partial results *)
  Theorem C103_tf_float_partial_results clock fuel p it lg l o' r : run_iter (F:=F) clock fuel (AObj (F:=F) a p it lg) d = (Ok l, o') -> In r l -> in_range 0 r.
  Proof.
    intros H Hr. destruct (list_eq_dec (fun t t' => eq_dec_of t t') ts []) as [Ets|NE].
    { unfold run_iter in H. assert (Hz : num_claims d = 0%nat) by (rewrite (rep_nc _ _ _ R0), Ets; reflexivity). rewrite Hz in H. discriminate. }
    rewrite (run_iter_char clock ts None d R0 NE) in H. destruct (init (F:=F) a p d) as [x0|] eqn:E0; [|discriminate].
    destruct (it_loop _ _ _ fuel (reset it) 0) as [[q k] it'] eqn:El. destruct q as [[]|e]; [|discriminate]. cbn [final] in H. injection H as <- _.
    unfold partial_results, initial_log in Hr. cbn [logs_initial app length] in Hr. assert (Hi : exists i j, r = partial_result (F:=F) clock ts d a x0 j i) by (destruct Hr as [<-|Hr]; [eauto|apply in_map_iff in Hr; destruct Hr as (i & <- & _); eauto]).
    destruct Hi as (i & j & ->). destruct (tf_scores64 p x0 E0 i) as (t & g & E & Ht & Hg & _).
    apply (range_intro _ _ t g); [|exact Ht|exact Hg].
    apply (reports64 L); [exact (f_equal (fun y => tdict (F:=F) ts (fst y)) E)|exact (f_equal (fun y => bdict (F:=F) ts (snd y)) E)].
  Qed.
  (** with a fixed number of rounds the run returns *)
  Theorem C103_tf_float_returns clock fuel p n st lg : ts <> [] -> p <> BadPrior -> (Z.to_nat n < fuel)%nat ->
    exists r, fst (run (F:=F) clock fuel (AObj (F:=F) a p (IFixed n st) lg) d) = Ok r /\ in_range 0 r.
  Proof.
    intros NE Hp Hf. destruct (C28_fixed_returns b None ts d Hb clock fuel a p n st lg NE) as (r & Hr); [discriminate|exact Hp|exact Hf|].
    destruct (run (F:=F) clock fuel (AObj (F:=F) a p (IFixed n st) lg) d) as [q o'] eqn:E. cbn in Hr. subst q. exists r. split; [reflexivity|].
    apply (proj1 (C103_tf_float clock fuel p (IFixed n st) lg r o' E)).
  Qed.
End C103.

(** The default parameters are in the range. *)
Theorem C103_defaults L : exists (rho gamma t0 : B64 L) g0 q0, mk_truthfinder (F:=B64 L) None None None = TruthFinder rho gamma t0 /\
  isf gamma g0 /\ 0 <= g0 <= 1 /\ isf t0 q0 /\ 0 <= q0 < 1.
Proof.
  assert (H10 : isf (ofZ64 10) 10) by (apply (ofZ64_isf 10); lia). assert (H3 : isf (ofZ64 3) 3) by (apply (ofZ64_isf 3); lia). assert (H9 : isf (ofZ64 9) 9) by (apply (ofZ64_isf 9); lia).
  exists (lit (F:=B64 L) 5 10), (lit (F:=B64 L) 3 10), (lit (F:=B64 L) 9 10), (rnd (3 / 10)), (rnd (9 / 10)). split; [reflexivity|].
  assert (B : 1 < bpow radix2 1024) by (change 1 with (bpow radix2 0); apply bpow_lt; lia).
  split; [apply (div64 _ _ _ _ 1 H3 H10); [lra|lra|exact fmt_1|lra|exact B]|]. split; [split; [apply (rnd_ge_fmt 0 _ fmt_0); lra|apply (rnd_le_fmt _ 1 fmt_1); lra]|].
  split; [apply (div64 _ _ _ _ 1 H9 H10); [lra|lra|exact fmt_1|lra|exact B]|]. split; [apply (rnd_ge_fmt 0 _ fmt_0); lra|].
  assert (F15 : generic_format radix2 fexp64 (15 / 16)) by (replace (15 / 16) with (IZR 15 * bpow radix2 (-4)) by (change (bpow radix2 (-4)) with (/ 16); lra); apply fmt_int; lia).
  apply Rle_lt_trans with (15 / 16); [apply (rnd_le_fmt _ _ F15)|]; lra.
Qed.
(** Every power of two up to 2^53 is safe: its shares add up to exactly 1. *)
Theorem C103_powers_of_two (k : nat) : (k <= 53)%nat -> safe (2 ^ k) = true /\ isf (sum_of_shares (2 ^ k)) 1.
Proof.
  intros Hk. set (n := (2 ^ k)%nat).
  assert (En : Z.of_nat n = (2 ^ Z.of_nat k)%Z) by (unfold n; rewrite Nat2Z.inj_pow; reflexivity).
  assert (Ln : (Z.of_nat n <= 2 ^ 53)%Z) by (rewrite En; apply Z.pow_le_mono_r; lia).
  assert (Rn : IZR (Z.of_nat n) = bpow radix2 (Z.of_nat k)) by (rewrite En; apply (IZR_Zpower radix2); lia).
  assert (Hn : isf (ofZ64 (Z.of_nat n)) (bpow radix2 (Z.of_nat k))) by (rewrite <- Rn; apply ofZ64_isf; lia).
  assert (Hs : isf (Bdiv mode_NE (ofZ64 1) (ofZ64 (Z.of_nat n))) (bpow radix2 (- Z.of_nat k))).
  { pose proof (bpow_gt_0 radix2 (Z.of_nat k)) as P. assert (E1 : 1 / bpow radix2 (Z.of_nat k) = bpow radix2 (- Z.of_nat k)) by (rewrite bpow_opp; unfold Rdiv; ring).
    rewrite <- (rnd_id (bpow radix2 (- Z.of_nat k))) by (apply fmt_bpow; lia). rewrite <- E1.
    apply (div64 _ _ _ _ 1 one64 Hn); [lra|rewrite E1; apply bpow_ge_0|exact fmt_1|rewrite E1; change 1 with (bpow radix2 0); apply bpow_le; lia|change 1 with (bpow radix2 0); apply bpow_lt; lia]. }
  set (e := (- Z.of_nat k)%Z) in *. set (sh := Bdiv mode_NE (ofZ64 1) (ofZ64 (Z.of_nat n))) in *.
  assert (G : forall m j a, (j + m <= n)%nat -> isf a (INR j * bpow radix2 e) -> isf (fold_left (Bplus mode_NE) (repeat sh m) a) (INR (j + m) * bpow radix2 e)).
  { induction m as [|m IH]; intros j a Hj Ha; [cbn [repeat fold_left]; now rewrite Nat.add_0_r|]. cbn [repeat fold_left].
    replace (j + Datatypes.S m)%nat with (Datatypes.S j + m)%nat by lia. apply IH; [lia|].
    assert (Fm : generic_format radix2 fexp64 (INR (Datatypes.S j) * bpow radix2 e)) by (rewrite INR_IZR_INZ; apply fmt_int; unfold e; lia).
    assert (Q : INR j * bpow radix2 e + bpow radix2 e = INR (Datatypes.S j) * bpow radix2 e) by (rewrite S_INR; ring).
    rewrite <- (rnd_id _ Fm), <- Q. apply (add64 _ _ _ _ (INR (Datatypes.S j) * bpow radix2 e)); [exact Ha|exact Hs|apply Rmult_le_pos; [apply pos_INR|apply bpow_ge_0]|apply bpow_ge_0|exact Fm|lra|].
    apply Rle_lt_trans with (bpow radix2 53 * bpow radix2 0).
    - apply Rmult_le_compat; [apply pos_INR|apply bpow_ge_0|rewrite INR_IZR_INZ; apply (IZR_le _ (2 ^ 53)); lia|apply bpow_le; unfold e; lia].
    - rewrite <- bpow_plus. apply bpow_lt. lia. }
  assert (T : isf (sum_of_shares n) 1).
  { assert (E1 : INR n * bpow radix2 e = 1) by (rewrite INR_IZR_INZ, Rn, <- bpow_plus; unfold e; rewrite Z.add_opp_diag_r; reflexivity).
    rewrite <- E1. apply (G n 0%nat); [lia|]. change (INR 0) with 0. rewrite Rmult_0_l. exact zero64. }
  split; [|exact T]. apply (le_fin _ _ 1 1 T one64). lra.
Qed.

(** Non-vacuity: correctly rounded logarithm and exponential; the dataset of AccuracyExamples, where the sources make 2, 3 and 2 claims; the default parameters *)
Module TFRange64Examples.
  Import AccuracyExamples.
  Lemma lm_exp_usable : usable_exp lm.
  Proof.
    intros x Fx Hx. set (r := B2R64 x) in *. pose proof (exp_pos r) as P.
    assert (Up : exp r <= 1) by (rewrite <- exp_0; destruct (Req_dec r 0) as [->|]; [lra|left; apply exp_increasing; lra]).
    cbn [lm lm_exp]. fold r. destruct (of_R_isf (exp r)) as (A & B).
    { rewrite Rabs_pos_eq by lra. apply Rle_lt_trans with (bpow radix2 0); [exact Up|apply bpow_lt; lia]. }
    split; [exact A|]. rewrite B. split; [apply (rnd_ge_fmt 0 _ fmt_0); lra|apply (rnd_le_fmt _ 1 fmt_1); exact Up].
  Qed.
  Example many_rounds n : (1 <= n)%Z -> exists (d : dataset nat nat nat (B64 lm)) (a : alg (B64 lm)), build (F:=B64 lm) false None ts = Ok d /\ mk_truthfinder (F:=B64 lm) None None None = a /\
    exists r, fst (run (F:=B64 lm) (fun _ => ofZ64 0) (Datatypes.S (Z.to_nat n)) (AObj a FIXED (IFixed n 0) None) d) = Ok r /\ in_range 0 r.
  Proof.
    intros Hn. destruct builds as (d & E). destruct (C103_defaults lm) as (rho & gamma & t0 & g0 & q0 & E1 & Hg & Bg & Ht & Bt). exists d, (TruthFinder rho gamma t0). split; [exact E|]. split; [exact E1|].
    assert (S1 : (Z.of_nat (length (sources ts)) <= 2 ^ 53)%Z) by (vm_compute; discriminate). assert (S2 : (Z.of_nat (length (claims ts)) <= 2 ^ 53)%Z) by (vm_compute; discriminate).
    assert (Sf : forall s, In s (sources ts) -> safe (length (claims_of ts s)) = true).
    { assert (Q : forallb (fun s => safe (length (claims_of ts s))) (sources ts) = true) by (vm_compute; reflexivity). intros s Hs. exact (proj1 (forallb_forall _ _) Q s Hs). }
    exact (C103_tf_float_returns lm Crh64Examples.lm_usable lm_exp_usable false ts d E S1 S2 Sf rho gamma t0 g0 q0 Hg Bg Ht ltac:(lra) (fun _ => ofZ64 0) (Datatypes.S (Z.to_nat n)) FIXED n 0%nat None ltac:(discriminate) ltac:(discriminate) ltac:(lia)).
  Qed.
End TFRange64Examples.
