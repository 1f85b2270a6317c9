(** C62: data about other variables from other sources does not change how sources and claims compare.  Exact arithmetic. *)
From Coq Require Import Reals Lra.
From Verif Require Import Base Num Sparse Spec SpecAlg Dataset DatasetProofs DatasetRep Iterators Algorithms Driver Distance Ranking Rounds
  AlgRep AlgRounds AlgTF AlgPack PropsData PropsIter PropsRun PropsAlg PropsOrd PropsSupport ExpSum Spectral Conv Local PropsMono.
Local Open Scope R_scope.

Section Scaled.
  Context {S V W : Type} {ES : Eqb S} {EV : Eqb V} {EW : Eqb W}.
  Notation claim := (V * W)%type.
  Notation rscores := (@rscores S V W).
  Variables (ts ts' : list (S * V * W)) (f : option (V -> W -> W -> option R)).
  Hypothesis Same : same_claims ts ts'.
  Hypothesis Unrel : unrelated ts ts'.
  Hypothesis NE : ts <> [].

  (** on [ts], the trusts [y] are [q1] times, the beliefs [q2] times those of [x] *)
  Definition scaled (q1 q2 : R) (x y : rscores) : Prop :=
    (forall s, In s (sources ts) -> fst y s = q1 * fst x s) /\ (forall c, In c (claims ts) -> snd y c = q2 * snd x c).
  Lemma NE' : ts' <> [].
  Proof. intros H. pose proof (src_ne ts NE) as Q. destruct (sources ts) as [|s l] eqn:Es; [congruence|]. assert (Hs : In s (sources ts')) by (apply (ext_sources ts ts' Same); rewrite Es; now left). rewrite H in Hs. exact Hs. Qed.
  Lemma by_max_scaled (T : S -> R) (B : claim -> R) T' B' q p : 0 < q -> 0 < p -> (forall s, In s (sources ts) -> T' s = q * T s) -> (forall c, In c (claims ts) -> B' c = p * B c) ->
    0 < rmax T (sources ts) -> 0 < rmax B (claims ts) -> 0 < rmax T' (sources ts') -> 0 < rmax B' (claims ts') ->
    exists q1 q2, 0 < q1 /\ 0 < q2 /\ scaled q1 q2 (by_max (sources ts) T, by_max (claims ts) B) (by_max (sources ts') T', by_max (claims ts') B').
  Proof.
    intros Hq Hp HT HB M1 M2 M3 M4. exists (q * rmax T (sources ts) / rmax T' (sources ts')), (p * rmax B (claims ts) / rmax B' (claims ts')).
    split; [apply Rdiv_lt_0_compat; [now apply Rmult_lt_0_compat|exact M3]|]. split; [apply Rdiv_lt_0_compat; [now apply Rmult_lt_0_compat|exact M4]|].
    split; intros z Hz; cbn [fst snd]; unfold by_max; [rewrite HT by exact Hz|rewrite HB by exact Hz]; field; lra.
  Qed.
  Lemma tb_scaled (g g' : claim -> R) q s : (forall c, In c (claims ts) -> g' c = q * g c) -> In s (sources ts) -> total_belief ts' g' s = q * total_belief ts g s.
  Proof. intros H Hs. rewrite <- (ext_total_belief ts ts' Same g' g' s Hs) by reflexivity. now apply total_belief_scal. Qed.
  Lemma tt_scaled (g g' : S -> R) q c : (forall s, In s (sources ts) -> g' s = q * g s) -> In c (claims ts) -> total_trust ts' g' c = q * total_trust ts g c.
  Proof.
    intros H Hc. rewrite <- (ext_total_trust ts ts' Same Unrel g' g' c Hc) by reflexivity. unfold total_trust. rewrite <- rsum_scal. apply rsum_ext. intros s Hs. apply H. now apply (supporters_sources ts s c).
  Qed.
  Lemma rivals_scaled (g g' : claim -> R) q c : (forall c, In c (claims ts) -> g' c = q * g c) -> In c (claims ts) -> rsum g' (rivals ts' c) = q * rsum g (rivals ts c).
  Proof.
    intros H Hc. rewrite <- (ext_rivals ts ts' Same Unrel g' g' c Hc) by reflexivity. rewrite <- rsum_scal. apply rsum_ext. intros c' Hc'. apply H. unfold rivals in Hc'. apply filter_In in Hc'. tauto.
  Qed.

  (** the prior beliefs are the same *)
  Lemma prior_local p bel bel' : prior_spec ts p = Some bel -> prior_spec ts' p = Some bel' -> forall c, In c (claims ts) -> bel' c = bel c.
  Proof.
    intros E E' c Hc. assert (Ns : forall c, In c (claims ts) -> n_supporters ts' c = n_supporters ts c) by (intros; symmetry; now apply (ext_n_supporters ts ts' Same Unrel)).
    destruct p; cbn in E, E'; try discriminate; injection E as <-; injection E' as <-.
    - reflexivity.
    - rewrite Ns by exact Hc. f_equal. rewrite (rivals_scaled (n_supporters ts) (n_supporters ts') 1 c); [lra| |exact Hc]. intros c' Hc'. rewrite Ns by exact Hc'. lra.
    - now apply Ns.
    - now rewrite (ext_n_rivals ts ts' Same Unrel c Hc).
  Qed.
  Lemma start_local a p x0 y0 : start ts a p = Some x0 -> start ts' a p = Some y0 -> (match a with CRH _ => False | _ => True end) -> scaled 1 1 x0 y0.
  Proof.
    intros E E' Ha. destruct a as [| | | |? ? [] | |]; cbn in E, E'; try contradiction; try discriminate;
      try (destruct (prior_spec ts p) as [bel|] eqn:Ep; [|discriminate]; destruct (prior_spec ts' p) as [bel'|] eqn:Ep'; [|discriminate];
           injection E as <-; injection E' as <-; split; cbn [fst snd]; intros z Hz; [lra|rewrite (prior_local p bel bel' Ep Ep' z Hz); lra]).
    injection E as <-. injection E' as <-. split; cbn [fst snd]; intros; lra.
  Qed.

  Lemma sums_scaled q1 q2 x y : 0 < q2 -> scaled q1 q2 x y -> (forall c, In c (claims ts) -> 0 < snd x c) -> (forall c, In c (claims ts') -> 0 < snd y c) ->
    exists p1 p2, 0 < p1 /\ 0 < p2 /\ scaled p1 p2 (sums_step ts x) (sums_step ts' y).
  Proof.
    intros H2 [_ Hc] P P'.
    assert (T : forall s, In s (sources ts) -> total_belief ts' (snd y) s = q2 * total_belief ts (snd x) s) by (intros; now apply tb_scaled).
    apply (by_max_scaled (total_belief ts (snd x)) (total_trust ts (total_belief ts (snd x))) _ _ q2 q2 H2 H2).
    - exact T.
    - intros c Hc'. now apply tt_scaled.
    - apply rmax_src_pos; [exact NE|]. intros. now apply total_belief_pos.
    - apply rmax_cl_pos; [exact NE|]. intros. apply total_trust_pos; [|assumption]. intros. now apply total_belief_pos.
    - apply rmax_src_pos; [exact NE'|]. intros. now apply total_belief_pos.
    - apply rmax_cl_pos; [exact NE'|]. intros. apply total_trust_pos; [|assumption]. intros. now apply total_belief_pos.
  Qed.

  Lemma invests_scaled q t t' s : (forall s, In s (sources ts) -> t' s = q * t s) -> In s (sources ts) -> invests ts' t' s = q * invests ts t s.
  Proof. intros H Hs. unfold invests. rewrite H by exact Hs. rewrite <- (ext_n_claims ts ts' Same s Hs). unfold Rdiv. ring. Qed.
  Lemma invested_scaled q t t' c : (forall s, In s (sources ts) -> t' s = q * t s) -> In c (claims ts) -> invested ts' t' c = q * invested ts t c.
  Proof. intros H Hc. apply tt_scaled; [|exact Hc]. intros s Hs. now apply invests_scaled. Qed.
  Lemma invested_pos (l : list (S * V * W)) t c : (forall s, In s (sources l) -> 0 < t s) -> In c (claims l) -> 0 < invested l t c.
  Proof. intros H Hc. apply total_trust_pos; [|exact Hc]. intros s Hs. apply Rdiv_lt_0_compat; [now apply H|now apply n_claims_pos]. Qed.
  Lemma returned_scaled q1 q2 x y s : 0 < q1 -> scaled q1 q2 x y -> all_pos ts x -> In s (sources ts) -> returned ts' y s = q2 * returned ts x s.
  Proof.
    intros H1 [Hs Hc] [P1 P2] Hin. unfold returned. rewrite <- rsum_scal.
    symmetry. apply rsum_same_set; try apply claims_of_NoDup; [now apply (ext_claims_of ts ts' Same)|].
    intros c Hcl. pose proof (claims_of_claims ts s c Hcl) as Cl. rewrite (Hc c Cl), (invests_scaled q1 (fst x) (fst y) s Hs Hin), (invested_scaled q1 (fst x) (fst y) c Hs Cl).
    pose proof (invested_pos ts (fst x) c P1 Cl). field. lra.
  Qed.
  Lemma returned_pos (l : list (S * V * W)) x s : all_pos l x -> In s (sources l) -> 0 < returned l x s.
  Proof.
    intros [P1 P2] Hs. destruct (claims_of_ne l s Hs) as [c0 H0].
    assert (Q : forall c, In c (claims_of l s) -> 0 < snd x c * (invests l (fst x) s / invested l (fst x) c)).
    { intros c Hc. pose proof (claims_of_claims l s c Hc) as Cl. apply Rmult_lt_0_compat; [now apply P2|]. apply Rdiv_lt_0_compat; [|now apply invested_pos]. apply Rdiv_lt_0_compat; [now apply P1|now apply n_claims_pos]. }
    apply (rsum_pos _ _ c0); [intros c Hc; left; now apply Q|exact H0|now apply Q].
  Qed.
  Lemma Rpower_pos u v : 0 < Rpower u v. Proof. apply exp_pos. Qed.
  Lemma inv_scaled g q1 q2 x y : 0 < q1 -> 0 < q2 -> scaled q1 q2 x y -> all_pos ts x -> all_pos ts' y ->
    exists p1 p2, 0 < p1 /\ 0 < p2 /\ scaled p1 p2 (inv_step ts g x) (inv_step ts' g y).
  Proof.
    intros H1 H2 H P P'. assert (T : forall s, In s (sources ts) -> returned ts' y s = q2 * returned ts x s) by (intros; now apply (returned_scaled q1)).
    apply (by_max_scaled (returned ts x) (fun c => Rpower (invested ts (returned ts x) c) g) _ (fun c => Rpower (invested ts' (returned ts' y) c) g) q2 (Rpower q2 g) H2 (Rpower_pos _ _)).
    - exact T.
    - intros c Hc. rewrite (invested_scaled q2 _ _ c T Hc). symmetry. apply Rpower_mult_distr; [exact H2|]. apply invested_pos; [|exact Hc]. intros. now apply returned_pos.
    - apply rmax_src_pos; [exact NE|]. intros. now apply returned_pos.
    - apply rmax_cl_pos; [exact NE|]. intros. apply Rpower_pos.
    - apply rmax_src_pos; [exact NE'|]. intros. now apply returned_pos.
    - apply rmax_cl_pos; [exact NE'|]. intros. apply Rpower_pos.
  Qed.
  Lemma pooled_belief_pos (l : list (S * V * W)) g t c : (forall s, In s (sources l) -> 0 < t s) -> In c (claims l) -> 0 < invested l t c * (Rpower (invested l t c) g / rsum (fun c => Rpower (invested l t c) g) (rivals l c)).
  Proof.
    intros H Hc. apply Rmult_lt_0_compat; [now apply invested_pos|]. apply Rdiv_lt_0_compat; [apply Rpower_pos|]. apply (rsum_pos _ _ c); [intros; left; apply Rpower_pos| |apply Rpower_pos].
    apply rivals_In. auto.
  Qed.
  Lemma pooled_scaled g q1 q2 x y : 0 < q1 -> 0 < q2 -> scaled q1 q2 x y -> all_pos ts x -> all_pos ts' y ->
    exists p1 p2, 0 < p1 /\ 0 < p2 /\ scaled p1 p2 (pooled_step ts g x) (pooled_step ts' g y).
  Proof.
    intros H1 H2 H P P'. assert (T : forall s, In s (sources ts) -> returned ts' y s = q2 * returned ts x s) by (intros; now apply (returned_scaled q1)).
    assert (Tp : forall s, In s (sources ts) -> 0 < returned ts x s) by (intros; now apply returned_pos).
    assert (Tp' : forall s, In s (sources ts') -> 0 < returned ts' y s) by (intros; now apply returned_pos).
    apply (by_max_scaled (returned ts x) (fun c => invested ts (returned ts x) c * (Rpower (invested ts (returned ts x) c) g / rsum (fun c => Rpower (invested ts (returned ts x) c) g) (rivals ts c)))
      _ (fun c => invested ts' (returned ts' y) c * (Rpower (invested ts' (returned ts' y) c) g / rsum (fun c => Rpower (invested ts' (returned ts' y) c) g) (rivals ts' c))) q2 q2 H2 H2).
    - exact T.
    - assert (Hh : forall c, In c (claims ts) -> Rpower (invested ts' (returned ts' y) c) g = Rpower q2 g * Rpower (invested ts (returned ts x) c) g).
      { intros c Hc. rewrite (invested_scaled q2 _ _ c T Hc). symmetry. apply Rpower_mult_distr; [exact H2|now apply invested_pos]. }
      intros c Hc. rewrite (rivals_scaled (fun c => Rpower (invested ts (returned ts x) c) g) (fun c => Rpower (invested ts' (returned ts' y) c) g) (Rpower q2 g) c Hh Hc), (Hh c Hc), (invested_scaled q2 _ _ c T Hc).
      field. split; [|apply Rgt_not_eq, Rpower_pos]. apply Rgt_not_eq. apply (rsum_pos _ _ c); [intros; left; apply Rpower_pos|apply rivals_In; auto|apply Rpower_pos].
    - now apply rmax_src_pos.
    - apply rmax_cl_pos; [exact NE|]. intros. now apply pooled_belief_pos.
    - apply rmax_src_pos; [exact NE'|exact Tp'].
    - apply rmax_cl_pos; [exact NE'|]. intros. now apply pooled_belief_pos.
  Qed.
  Lemma tf_local rho gamma x y : scaled 1 1 x y -> scaled 1 1 (tf_step ts f rho gamma x) (tf_step ts' f rho gamma y).
  Proof.
    intros [Hs Hc]. assert (TT : forall c, In c (claims ts) -> total_trust ts' (fun s => - ln (1 - fst y s)) c = total_trust ts (fun s => - ln (1 - fst x s)) c).
    { intros c Hcl. symmetry. apply (ext_total_trust ts ts' Same Unrel); [exact Hcl|]. intros s H. rewrite (Hs s H). do 3 f_equal. ring. }
    assert (B : forall c, In c (claims ts) -> snd (tf_step ts' f rho gamma y) c = snd (tf_step ts f rho gamma x) c).
    { intros c Hcl. cbn [snd tf_step]. rewrite (TT c Hcl).
      assert (Q : rsum (fun c' => implication f c' c * total_trust ts' (fun s => - ln (1 - fst y s)) c') (claims ts') = rsum (fun c' => implication f c' c * total_trust ts (fun s => - ln (1 - fst x s)) c') (claims ts)); [|now rewrite Q].
      (* only rivals count *)
      assert (Z : forall (l : list (S * V * W)) g, rsum (fun c' => implication f c' c * g c') (claims l) = rsum (fun c' => implication f c' c * g c') (rivals l c)).
      { intros l g. unfold rivals. rewrite rsum_filter. apply rsum_ext. intros c' _. unfold implication. destruct f as [h|]; [|destruct (beq _ _); lra].
        destruct (beq_spec (fst c') (fst c)) as [->|N]; [now rewrite ?beq_refl|]. cbn [andb]. destruct (beq_spec (fst c) (fst c')); [congruence|]. rewrite ?(proj2 (beq_neq _ _) N). lra. }
      rewrite (Z ts' (total_trust ts' (fun s => - ln (1 - fst y s)))), (Z ts (total_trust ts (fun s => - ln (1 - fst x s)))). symmetry. apply (ext_rivals ts ts' Same Unrel); [exact Hcl|]. intros c' Hc'. now rewrite (TT c' Hc'). }
    split.
    - intros s H. rewrite Rmult_1_l. cbn [fst tf_step]. rewrite (ext_n_claims ts ts' Same s H). f_equal. symmetry. apply (ext_total_belief ts ts' Same); [exact H|].
      intros c Hcl. symmetry. exact (B c Hcl).
    - intros c Hcl. rewrite Rmult_1_l. now apply B.
  Qed.
End Scaled.

Section C62.
  Context {S V W : Type} {ES : Eqb S} {EV : Eqb V} {EW : Eqb W}.
  Notation data := (dataset S V W XR).
  Notation claim := (V * W)%type.
  Notation rscores := (@rscores S V W).
  Notation result := (result S V W xr).
  Variables (b b' : bool) (f : option (V -> W -> W -> option R)) (ts ts' : list (S * V * W)) (d d' : data).
  Hypothesis Hb : build b (real_imp f) ts = Ok d.
  Hypothesis Hb' : build b' (real_imp f) ts' = Ok d'.
  Let R0 : ds_rep ts (real_imp f) d := build_rep _ _ _ _ Hb.
  Let R0' : ds_rep ts' (real_imp f) d' := build_rep _ _ _ _ Hb'.
  Hypothesis Same : same_claims ts ts'.
  Hypothesis Unrel : unrelated ts ts'.

  (** the algorithms whose scores are local *)
  Definition local_alg (a : alg XR) : Prop :=
    match a with
    | Sums | AverageLog | Investment (Fin _) | PooledInvestment (Fin _) => True
    | TruthFinder (Fin _) (Fin _) (Fin t0) => t0 < 1
    | _ => False
    end.
  (** on the sources and claims of [ts], the scores of [r'] are those of [r], multiplied by [q1] (trust) and [q2] (belief) *)
  Definition proportional (q1 q2 : R) (r r' : result) : Prop :=
    (forall s, In s (sources ts) -> exists u, trust_of r s = Some (Fin u) /\ trust_of r' s = Some (Fin (q1 * u))) /\
    (forall c, In c (claims ts) -> exists u, belief_of r c = Some (Fin u) /\ belief_of r' c = Some (Fin (q2 * u))).
  Lemma proportional_intro q1 q2 r r' x y : scaled ts q1 q2 x y -> reports_real ts r x -> reports_real ts' r' y -> proportional q1 q2 r r'.
  Proof.
    intros [Hs Hc] Rx Ry. split; intros z Hz.
    - exists (fst x z). split; [exact (reports_trust ts r x z Rx Hz)|]. etransitivity; [exact (reports_trust ts' r' y z Ry (ext_sources ts ts' Same z Hz))|]. now rewrite (Hs z Hz).
    - exists (snd x z). split; [exact (reports_belief ts r x z Rx Hz)|]. etransitivity; [exact (reports_belief ts' r' y z Ry (ext_claims ts ts' Same z Hz))|]. now rewrite (Hc z Hz).
  Qed.
  Lemma local_ok a : local_alg a -> params_ok a /\ a <> UnboundedSums /\ (match a with CRH _ => False | _ => True end).
  Proof. destruct a as [| |[]|[]|[] [] []|[]|]; cbn; try tauto; (split; [tauto|]); split; (discriminate || exact I). Qed.
  Lemma data_ok_ext a : data_ok ts a -> data_ok ts' a.
  Proof.
    destruct a; cbn; try tauto. intros (s & Hs & H). exists s. split; [exact (ext_sources ts ts' Same s Hs)|].
    replace (length (claims_of ts' s)) with (length (claims_of ts s)); [exact H|]. apply Permutation_length, NoDup_Permutation; try apply claims_of_NoDup. now apply (ext_claims_of ts ts' Same).
  Qed.
  Lemma local_step a q1 q2 x y : ts <> [] -> local_alg a -> data_ok ts a -> good ts a x -> good ts' a y -> 0 < q1 -> 0 < q2 -> scaled ts q1 q2 x y ->
    (match a with TruthFinder _ _ _ => q1 = 1 /\ q2 = 1 | _ => True end) ->
    exists p1 p2, 0 < p1 /\ 0 < p2 /\ scaled ts p1 p2 (step_of f ts a x) (step_of f ts' a y) /\ (match a with TruthFinder _ _ _ => p1 = 1 /\ p2 = 1 | _ => True end).
  Proof.
    intros NE Ha Hd G G' H1 H2 H T. pose proof (NE' ts ts' Same NE) as NEx.
    assert (W0 : (exists p1 p2, 0 < p1 /\ 0 < p2 /\ scaled ts p1 p2 (step_of f ts a x) (step_of f ts' a y)) ->
      match a with TruthFinder _ _ _ => False | _ => True end -> exists p1 p2, 0 < p1 /\ 0 < p2 /\ scaled ts p1 p2 (step_of f ts a x) (step_of f ts' a y) /\ (match a with TruthFinder _ _ _ => p1 = 1 /\ p2 = 1 | _ => True end)).
    { intros (p1 & p2 & A & B & C) Q. exists p1, p2. repeat split; auto; try apply C; destruct a; tauto. }
    destruct a as [| |[g| | |]|[g| | |]|[rho| | |] [gamma| | |] [t0| | |]|[]|]; cbn in Ha; try contradiction; cbn [step_of good data_ok] in *.
    - apply W0; [|exact I]. now apply (sums_scaled ts ts' Same Unrel NE q1 q2).
    - apply W0; [|exact I]. pose proof (data_ok_ext AverageLog Hd) as Hd'.
      destruct (avlog_round ts (real_imp f) d R0 NE x Hd G) as (_ & _ & M1 & M2). destruct (avlog_round ts' (real_imp f) d' R0' NEx y Hd' G') as (_ & _ & M3 & M4).
      assert (T0 : forall s, In s (sources ts) -> avlog_trust ts' (snd y) s = q2 * avlog_trust ts (snd x) s).
      { intros s Hs. unfold avlog_trust. rewrite <- (ext_n_claims ts ts' Same s Hs), (tb_scaled ts ts' Same (snd x) (snd y) q2 s (proj2 H) Hs). unfold Rdiv. ring. }
      exact (by_max_scaled ts ts' (avlog_trust ts (snd x)) (total_trust ts (avlog_trust ts (snd x))) _ _ q2 q2 H2 H2 T0 (fun c Hc => tt_scaled ts ts' Same Unrel _ _ q2 c T0 Hc) M1 M2 M3 M4).
    - apply W0; [|exact I]. now apply (inv_scaled ts ts' Same Unrel NE g q1 q2).
    - apply W0; [|exact I]. now apply (pooled_scaled ts ts' Same Unrel NE g q1 q2).
    - destruct T as [-> ->]. exists 1, 1. split; [lra|]. split; [lra|]. split; [|auto]. now apply tf_local.
  Qed.
  Lemma local_rounds a x0 y0 k : ts <> [] -> local_alg a -> data_ok ts a -> good ts a x0 -> good ts' a y0 -> scaled ts 1 1 x0 y0 ->
    exists p1 p2, 0 < p1 /\ 0 < p2 /\ scaled ts p1 p2 (rounds (step_of f ts a) x0 k) (rounds (step_of f ts' a) y0 k) /\ (match a with TruthFinder _ _ _ => p1 = 1 /\ p2 = 1 | _ => True end).
  Proof.
    intros NE Ha Hd G G' H. destruct (local_ok a Ha) as (Hp & _ & _).
    induction k as [|k (q1 & q2 & H1 & H2 & Hk & T)].
    - exists 1, 1. cbn [rounds]. repeat split; try lra; try apply H. destruct a; auto.
    - cbn [rounds]. apply (local_step a q1 q2); auto.
      + exact (proj2 (pack_scores b f ts d Hb NE a x0 Hp Hd G k)).
      + exact (proj2 (pack_scores b' f ts' d' Hb' (NE' ts ts' Same NE) a y0 Hp (data_ok_ext a Hd) G' k)).
  Qed.
  Lemma fixed_rounds (b0 : bool) (l : list (S * V * W)) (e : data) (He : build b0 (real_imp f) l = Ok e) clock fuel a p n st lg r o' : params_ok a -> data_ok l a -> a <> UnboundedSums ->
    run clock fuel (AObj a p (IFixed n st) lg) e = (Ok r, o') -> exists x0, l <> [] /\ start l a p = Some x0 /\ good l a x0 /\ reports_real l r (rounds (step_of f l a) x0 (Z.to_nat n)).
  Proof.
    intros Hp Hd Ha H. assert (K : exists k, r_iterations r = Some k) by (destruct (C28_fixed b0 (real_imp f) l e He _ _ _ _ _ _ _ _ _ H) as (k & E & _); eauto). destruct K as [k Ek].
    destruct (pack_run b0 f l e He _ _ _ _ _ _ _ _ _ Hp Hd H Ek) as (NE & x0 & E0 & Rp). pose proof (pack_start_good l a p x0 Hp E0) as G.
    assert (Kn : r_iterations r = Some (Z.to_nat n)).
    { refine (run_fixed_full b0 f l e He clock fuel a p n st lg r o' x0 (step_of f l a) (good l a) Ha _ G _ H).
      - rewrite (pack_start b0 f l e He NE a p Hp), E0. reflexivity.
      - intros x _ Gx. destruct (pack_round b0 f l e He NE a x Hp Hd Gx) as [E1 G1]. split; [eauto|exact G1]. }
    rewrite Ek in Kn. injection Kn as ->. exists x0. split; [exact NE|]. split; [exact E0|]. split; [exact G|].
    replace (reported l a (rounds (step_of f l a) x0 (Z.to_nat n))) with (rounds (step_of f l a) x0 (Z.to_nat n)) in Rp by (destruct a; reflexivity || congruence). exact Rp.
  Qed.

  (** With the same number of rounds, the scores within [ts] are the same up to one positive factor for the trusts and one for
      the beliefs (the normalisation sees the other data); for TruthFinder they are equal. *)
  Theorem C62_local clock fuel a p n st lg r o' clock' fuel' st' lg' r' o'' : local_alg a -> data_ok ts a ->
    run clock fuel (AObj a p (IFixed n st) lg) d = (Ok r, o') -> run clock' fuel' (AObj a p (IFixed n st') lg') d' = (Ok r', o'') ->
    exists q1 q2, 0 < q1 /\ 0 < q2 /\ proportional q1 q2 r r' /\ (match a with TruthFinder _ _ _ => q1 = 1 /\ q2 = 1 | _ => True end).
  Proof.
    intros Ha Hd H H'. destruct (local_ok a Ha) as (Hp & Nu & Nc).
    destruct (fixed_rounds b ts d Hb clock fuel a p n st lg r o' Hp Hd Nu H) as (x0 & NE & E0 & G & Rp).
    destruct (fixed_rounds b' ts' d' Hb' clock' fuel' a p n st' lg' r' o'' Hp (data_ok_ext a Hd) Nu H') as (y0 & _ & E0' & G' & Rp').
    destruct (local_rounds a x0 y0 (Z.to_nat n) NE Ha Hd G G' (start_local ts ts' Same Unrel a p x0 y0 E0 E0' Nc)) as (p1 & p2 & H1 & H2 & Sc & T).
    exists p1, p2. split; [exact H1|]. split; [exact H2|]. split; [|exact T]. exact (proportional_intro p1 p2 r r' _ _ Sc Rp Rp').
  Qed.
  (** So nothing that is only a matter of comparison changes: which of two sources is trusted more, which of two claims is believed more. *)
  Theorem C62_same_comparisons clock fuel a p n st lg r o' clock' fuel' st' lg' r' o'' : local_alg a -> data_ok ts a ->
    run clock fuel (AObj a p (IFixed n st) lg) d = (Ok r, o') -> run clock' fuel' (AObj a p (IFixed n st') lg') d' = (Ok r', o'') ->
    (forall s1 s2, In s1 (sources ts) -> In s2 (sources ts) -> exists u1 u2 v1 v2, trust_of r s1 = Some (Fin u1) /\ trust_of r s2 = Some (Fin u2) /\ trust_of r' s1 = Some (Fin v1) /\ trust_of r' s2 = Some (Fin v2) /\ (u1 <= u2 <-> v1 <= v2)) /\
    (forall c1 c2, In c1 (claims ts) -> In c2 (claims ts) -> exists u1 u2 v1 v2, belief_of r c1 = Some (Fin u1) /\ belief_of r c2 = Some (Fin u2) /\ belief_of r' c1 = Some (Fin v1) /\ belief_of r' c2 = Some (Fin v2) /\ (u1 <= u2 <-> v1 <= v2)).
  Proof.
    intros Ha Hd H H'. destruct (C62_local _ _ _ _ _ _ _ _ _ _ _ _ _ _ _ Ha Hd H H') as (q1 & q2 & H1 & H2 & [Ps Pc] & _). split; intros z1 z2 Hz1 Hz2.
    - destruct (Ps z1 Hz1) as (u1 & A1 & B1). destruct (Ps z2 Hz2) as (u2 & A2 & B2). exists u1, u2, (q1 * u1), (q1 * u2). repeat (split; [assumption|]). split; intros; nra.
    - destruct (Pc z1 Hz1) as (u1 & A1 & B1). destruct (Pc z2 Hz2) as (u2 & A2 & B2). exists u1, u2, (q2 * u1), (q2 * u2). repeat (split; [assumption|]). split; intros; nra.
  Qed.
  (** Voting as well. *)
  Theorem C62_voting clock clock' r r' : voting_run clock d = Ok r -> voting_run clock' d' = Ok r' -> exists q, 0 < q /\ proportional 1 q r r'.
  Proof.
    intros H H'. assert (NE : ts <> []).
    { intros Q. pose proof Hb as Hb0. rewrite Q in Hb0. destruct (C26_empty b (real_imp f) [] d Hb0 clock 0 (AObj Sums FIXED (IFixed 0 0) None)) as [A _]. destruct (A eq_refl) as (_ & _ & A'). rewrite A' in H. discriminate. }
    pose proof (NE' ts ts' Same NE) as NEx.
    destruct (C31_voting b f ts d Hb clock NE) as (r1 & E1 & _ & Rp). rewrite H in E1. injection E1 as <-.
    destruct (C31_voting b' f ts' d' Hb' clock' NEx) as (r1 & E1 & _ & Rp'). rewrite H' in E1. injection E1 as <-.
    assert (M : 0 < rmax (n_supporters ts) (claims ts)) by (apply rmax_cl_pos; [exact NE|intros; now apply n_supporters_pos]).
    assert (M' : 0 < rmax (n_supporters ts') (claims ts')) by (apply rmax_cl_pos; [exact NEx|intros; now apply n_supporters_pos]).
    exists (rmax (n_supporters ts) (claims ts) / rmax (n_supporters ts') (claims ts')). split; [now apply Rdiv_lt_0_compat|].
    refine (proportional_intro _ _ r r' _ _ _ Rp Rp'). split; intros z Hz; cbn [fst snd]; [lra|]. rewrite <- (ext_n_supporters ts ts' Same Unrel z Hz). field. lra.
  Qed.
End C62.

(** When the hypotheses hold: the sources of [p] and the others say nothing about a common variable; in particular when two data
    sets without common sources and variables are put together, in whatever order their claims come. *)
Section Parts.
  Context {S V W : Type} {ES : Eqb S} {EV : Eqb V} {EW : Eqb W}.
  Theorem C62_part (p : S -> bool) (ts : list (S * V * W)) :
    (forall s s' x v v', In (s, x, v) ts -> In (s', x, v') ts -> p s = p s') -> same_claims (keep_sources p ts) ts /\ unrelated (keep_sources p ts) ts.
  Proof.
    intros H. split; [apply keep_same|]. intros s c Hs Hx. apply variables_In in Hx. destruct Hx as (s' & v' & Hx). apply filter_In in Hx. destruct Hx as [Hx Hp].
    pose proof (first_claim_In ts s (fst c) (snd c) (proj1 (says_true ts s c) Hs)) as Hin. destruct c as [x v]. cbn [fst snd] in *. apply sources_In. exists x, v. apply filter_In. split; [exact Hin|]. cbn. cbn in Hp. rewrite (H s s' x v v' Hin Hx). exact Hp.
  Qed.
  Theorem C62_union (ts1 ts2 : list (S * V * W)) : (forall s, In s (sources ts1) -> ~ In s (sources ts2)) -> (forall x, In x (variables ts1) -> ~ In x (variables ts2)) ->
    same_claims ts1 (ts1 ++ ts2) /\ unrelated ts1 (ts1 ++ ts2).
  Proof.
    intros Hs Hv. assert (E : keep_sources (fun s => mem s (sources ts1)) (ts1 ++ ts2) = ts1).
    { unfold keep_sources. rewrite filter_app.
      assert (E1 : filter (fun t => mem (t_src t) (sources ts1)) ts1 = ts1).
      { assert (G : forall l, incl l ts1 -> filter (fun t => mem (t_src t) (sources ts1)) l = l).
        { induction l as [|[[s x] v] l IH]; intros Hi; [reflexivity|]. cbn [filter]. assert (Q : mem (t_src (s, x, v)) (sources ts1) = true) by (apply mem_In, sources_In; exists x, v; apply Hi; now left). rewrite Q. f_equal. apply IH. intros t Ht. apply Hi. now right. }
        apply G. intros t Ht. exact Ht. }
      assert (E2 : filter (fun t => mem (t_src t) (sources ts1)) ts2 = []).
      { assert (G : forall l, incl l ts2 -> filter (fun t => mem (t_src t) (sources ts1)) l = []).
        { induction l as [|[[s x] v] l IH]; intros Hi; [reflexivity|]. cbn [filter]. destruct (mem (t_src (s, x, v)) (sources ts1)) eqn:Q.
          - exfalso. apply mem_In in Q. apply (Hs s Q). apply sources_In. exists x, v. apply Hi. now left.
          - apply IH. intros t Ht. apply Hi. now right. }
        apply G. intros t Ht. exact Ht. }
      rewrite E1, E2. apply app_nil_r. }
    rewrite <- E at 1 3. apply C62_part. intros s s' x v v' H H'. apply in_app_iff in H, H'.
    assert (I1 : forall s x v, In (s, x, v) ts1 -> In s (sources ts1) /\ In x (variables ts1)) by (intros; split; [apply sources_In|apply variables_In]; eauto).
    assert (I2 : forall s x v, In (s, x, v) ts2 -> In s (sources ts2) /\ In x (variables ts2)) by (intros; split; [apply sources_In|apply variables_In]; eauto).
    assert (T1 : forall s, In s (sources ts1) -> mem s (sources ts1) = true) by (intros; now apply mem_In).
    assert (T2 : forall s, In s (sources ts2) -> mem s (sources ts1) = false) by (intros s0 H0; destruct (mem s0 (sources ts1)) eqn:Q; [apply mem_In in Q; exfalso; exact (Hs s0 Q H0)|reflexivity]).
    destruct H as [H|H], H' as [H'|H'].
    - rewrite !T1; [reflexivity|apply (I1 _ _ _ H')|apply (I1 _ _ _ H)].
    - exfalso. exact (Hv x (proj2 (I1 _ _ _ H)) (proj2 (I2 _ _ _ H'))).
    - exfalso. exact (Hv x (proj2 (I1 _ _ _ H')) (proj2 (I2 _ _ _ H))).
    - rewrite !T2; [reflexivity|apply (I2 _ _ _ H')|apply (I2 _ _ _ H)].
  Qed.
End Parts.

(** ** Non-vacuity *)
Module LocalExamples.
  Import ListNotations.
  Definition part1 : list (nat * nat * nat) := [(1, 0, 1); (1, 7, 1); (2, 0, 5); (3, 7, 1)]%nat.
  Definition part2 : list (nat * nat * nat) := [(8, 4, 1); (9, 4, 2); (9, 5, 1)]%nat.
  Example apart : same_claims part1 (part1 ++ part2) /\ unrelated part1 (part1 ++ part2).
  Proof.
    apply C62_union.
    - change (sources part1) with [1; 2; 3]%nat. change (sources part2) with [8; 9]%nat. cbn. intuition congruence.
    - change (variables part1) with [0; 7]%nat. change (variables part2) with [4; 5]%nat. cbn. intuition congruence.
  Qed.
  (** both runs exist, and compare the sources and claims of the first part in the same way *)
  Example both_run a : local_alg a -> exists (d d' : dataset nat nat nat XR) r r', build false (real_imp None) part1 = Ok d /\ build false (real_imp None) (part1 ++ part2) = Ok d' /\
    fst (run (fun _ => Fin 0) 9 (AObj a COUNT (IFixed 5 0) None) d) = Ok r /\ fst (run (fun _ => Fin 0) 9 (AObj a COUNT (IFixed 5 0) None) d') = Ok r' /\
    exists q1 q2, 0 < q1 /\ 0 < q2 /\ proportional part1 q1 q2 r r'.
  Proof.
    intros Ha.
    assert (E1 : exists d : dataset nat nat nat XR, build false (real_imp None) part1 = Ok d) by (apply AlgExamples.strict_builds; unfold part1, sv_pairs; cbn; repeat constructor; cbn; intuition congruence).
    assert (E2 : exists d : dataset nat nat nat XR, build false (real_imp None) (part1 ++ part2) = Ok d) by (apply AlgExamples.strict_builds; unfold part1, part2, sv_pairs; cbn; repeat constructor; cbn; intuition congruence).
    destruct E1 as [d E1]. destruct E2 as [d' E2]. exists d, d'.
    assert (A : a <> UnboundedSums) by (intros ->; exact Ha). assert (B : (Z.to_nat 5 < 9)%nat) by (change (Z.to_nat 5) with 5%nat; lia).
    destruct (C28_fixed_returns false (real_imp None) part1 d E1 (fun _ => Fin 0) 9 a COUNT 5 0 None ltac:(discriminate) A ltac:(discriminate) B) as [r Er].
    destruct (C28_fixed_returns false (real_imp None) (part1 ++ part2) d' E2 (fun _ => Fin 0) 9 a COUNT 5 0 None ltac:(discriminate) A ltac:(discriminate) B) as [r' Er'].
    exists r, r'. split; [exact E1|]. split; [exact E2|]. split; [exact Er|]. split; [exact Er'|].
    assert (Dk : data_ok part1 a) by (destruct a; try exact I; exists 1%nat; split; [now left|exact (le_n 2)]).
    destruct apart as [Sm Un].
    destruct (C62_local false false None part1 (part1 ++ part2) d d' E1 E2 Sm Un (fun _ => Fin 0) 9 a COUNT 5 0 None r (snd (run (fun _ => Fin 0) 9 (AObj a COUNT (IFixed 5 0) None) d))
      (fun _ => Fin 0) 9 0 None r' (snd (run (fun _ => Fin 0) 9 (AObj a COUNT (IFixed 5 0) None) d')) Ha Dk) as (q1 & q2 & H1 & H2 & P & _).
    - rewrite <- Er. apply surjective_pairing.
    - rewrite <- Er'. apply surjective_pairing.
    - exists q1, q2. auto.
  Qed.
End LocalExamples.
