(** One round of each algorithm, in exact arithmetic, is one step of its label-level recurrence. *)
From Coq Require Import Reals Lra.
From Verif Require Import Base Num Sparse Spec SpecAlg Dataset DatasetProofs DatasetRep Iterators Algorithms Driver Rounds AlgRep.
Local Open Scope R_scope.

Section AlgRounds.
  Context {S V W : Type} {ES : Eqb S} {EV : Eqb V} {EW : Eqb W}.
  Notation data := (dataset S V W XR).
  Notation claim := (V * W)%type.
  Variable ts : list (S * V * W).
  Variable impf : option (V -> W -> W -> option xr).
  Variable d : data.
  Hypothesis R0 : ds_rep (F:=XR) ts impf d.
  Hypothesis NE : ts <> [].
  Notation rscores := (@rscores S V W).
  Notation tvec := (tvec ts). Notation bvec := (bvec ts). Notation denote := (denote ts).

  (** ** Priors *)
  Lemma rivals_count_pos c : In c (claims ts) -> 0 < rsum (n_supporters ts) (rivals ts c).
  Proof.
    intros Hc. apply (rsum_pos _ _ c).
    - intros y Hy. apply rivals_In in Hy. left. apply n_supporters_pos. tauto.
    - now apply rivals_self.
    - now apply n_supporters_pos.
  Qed.
  Lemma prior_rep p : prior_beliefs p d = option_map bvec (prior_spec ts p).
  Proof.
    destruct p; cbn [prior_beliefs prior_spec option_map]; f_equal.
    - rewrite lit_fin by lra. unfold vfull. rewrite (rep_nc _ _ _ R0). apply repeat_map.
    - rewrite (source_counts_rep ts impf d R0), (mut_mv ts impf d R0), bvec_div; [reflexivity|].
      intros c Hc. apply Rgt_not_eq, rivals_count_pos, Hc.
    - apply (source_counts_rep ts impf d R0).
    - rewrite (vones_c ts impf d R0), (mut_mv ts impf d R0). change (n_ofZ 1 : XR) with (Fin 1). rewrite bvec_sdivv.
      + apply bvec_ext. intros c _. now rewrite rsum_const, Rmult_1_r.
      + intros c Hc. rewrite rsum_const, Rmult_1_r. apply Rgt_not_eq, (len_pos _ c), rivals_self, Hc.
  Qed.
  Lemma prior_pos p b : prior_spec ts p = Some b -> forall c, In c (claims ts) -> 0 < b c.
  Proof.
    destruct p; cbn; intros [= <-] c Hc.
    - lra.
    - apply Rdiv_lt_0_compat; [now apply n_supporters_pos|now apply rivals_count_pos].
    - now apply n_supporters_pos.
    - apply Rdiv_lt_0_compat; [lra|]. apply (len_pos _ c), rivals_self, Hc.
  Qed.
  Lemma init_rep a p : (match a with TruthFinder _ _ t0 => is_fin t0 | _ => True end) ->
    init a p d = option_map denote (start ts a p).
  Proof.
    unfold denote. destruct a; cbn [init start]; intros Hf; try (rewrite prior_rep; destruct (prior_spec ts p); cbn [option_map fst snd]);
      rewrite ?(vones_s ts impf d R0), ?(vzeros_s ts impf d R0); try reflexivity.
    - destruct Hf as [t0 ->]. cbn [option_map fst snd]. rewrite (vzeros_c ts impf d R0). unfold vfull. rewrite (rep_ns _ _ _ R0).
      now rewrite repeat_map.
    - cbn [option_map fst snd]. rewrite (source_counts_rep ts impf d R0). change (n_ofZ (Z.of_nat (num_sources d)) : XR) with (Fin (IZR (Z.of_nat (num_sources d)))).
      rewrite <- INR_IZR_INZ, (rep_ns _ _ _ R0), bvec_divs; [reflexivity|].
      apply not_0_INR. pose proof (src_ne ts NE). destruct (sources ts); [congruence|discriminate].
  Qed.

  (** ** Sums *)
  Lemma sums_round x : (forall c, In c (claims ts) -> 0 < snd x c) ->
    round Sums d (denote x) = UNext (tvec (fst x)) (tvec (fst (sums_step ts x))) (denote (sums_step ts x)) /\ all_pos ts (sums_step ts x).
  Proof.
    intros Hb. destruct x as [t b]. cbn [fst snd] in *.
    assert (P1 : forall s, In s (sources ts) -> 0 < total_belief ts b s) by (intros; now apply total_belief_pos).
    assert (P2 : forall c, In c (claims ts) -> 0 < total_trust ts (total_belief ts b) c) by (intros; now apply total_trust_pos).
    split.
    - cbn [round]. unfold AlgRep.denote, sums_upd. cbn [fst snd].
      rewrite (sc_mv ts impf d R0), (scT_mv ts impf d R0), tvec_pymax, bvec_pymax by exact NE.
      rewrite tvec_divs, bvec_divs by (apply Rgt_not_eq; (apply rmax_src_pos || apply rmax_cl_pos); auto). reflexivity.
    - split; cbn [fst snd sums_step]; intros; apply by_max_pos; auto.
  Qed.

  (** ** AverageLog *)
  Definition avlog_trust (b : claim -> R) (s : S) : R := ln (n_claims ts s) * (total_belief ts b s / n_claims ts s).
  Lemma avlog_weights_rep : avlog_weights d = tvec (fun s => ln (n_claims ts s) / n_claims ts s).
  Proof.
    unfold avlog_weights. rewrite (claim_counts_rep ts impf d R0).
    assert (E : map (@n_ln XR) (tvec (n_claims ts)) = tvec (fun s => ln (n_claims ts s))).
    { unfold AlgRep.tvec. rewrite map_map. apply map_ext_in. intros s Hs. apply xln_fin. now apply n_claims_pos. }
    rewrite E. apply tvec_div. intros s Hs. apply Rgt_not_eq. now apply n_claims_pos.
  Qed.
  Lemma avlog_nt b : vmul (avlog_weights d) (mv (sc d) (bvec b)) = tvec (avlog_trust b).
  Proof.
    rewrite avlog_weights_rep, (sc_mv ts impf d R0), tvec_mul. apply tvec_ext. intros s Hs. unfold avlog_trust. field.
    apply Rgt_not_eq. now apply n_claims_pos.
  Qed.
  Lemma avlog_trust_nonneg b s : (forall c, In c (claims ts) -> 0 <= b c) -> In s (sources ts) -> 0 <= avlog_trust b s.
  Proof.
    intros Hb Hs. unfold avlog_trust. pose proof (n_claims_pos ts s Hs). pose proof (n_claims_ge1 ts s Hs) as G.
    apply Rmult_le_pos.
    - destruct G as [G|G]; [|rewrite <- G, ln_1; lra]. rewrite <- ln_1. left. apply ln_increasing; lra.
    - apply Rmult_le_pos; [|left; now apply Rinv_0_lt_compat]. apply rsum_nonneg. intros c Hc. apply Hb.
      unfold claims_of in Hc. apply filter_In in Hc. tauto.
  Qed.
  (** claims of a source with at least two claims *)
  Definition solid (c : claim) : Prop := exists s, says ts s c = true /\ (2 <= length (claims_of ts s))%nat.
  Definition avlog_inv (x : rscores) : Prop :=
    (forall c, In c (claims ts) -> 0 <= snd x c) /\ (forall c, solid c -> 0 < snd x c).
  Lemma avlog_trust_pos b s : (forall c, In c (claims ts) -> 0 <= b c) -> (forall c, solid c -> 0 < b c) ->
    (2 <= length (claims_of ts s))%nat -> 0 < avlog_trust b s.
  Proof.
    intros Hb Hp H2. assert (Nc : 2 <= n_claims ts s) by (apply (le_INR 2 _ H2)).
    unfold avlog_trust. apply Rmult_lt_0_compat; [rewrite <- ln_1; apply ln_increasing; lra|].
    apply Rdiv_lt_0_compat; [|lra]. destruct (claims_of ts s) as [|c l] eqn:E; [cbn in H2; lia|].
    unfold total_belief. apply (rsum_pos b _ c).
    - intros y Hy. apply Hb. unfold claims_of in Hy. apply filter_In in Hy. tauto.
    - rewrite E. now left.
    - apply Hp. exists s. split; [apply claims_of_In; rewrite E; now left|rewrite E; exact H2].
  Qed.
  Lemma avlog_round x : (exists s, In s (sources ts) /\ (2 <= length (claims_of ts s))%nat) -> avlog_inv x ->
    round AverageLog d (denote x) = UNext (tvec (fst (avlog_step ts x))) (tvec (fst x)) (denote (avlog_step ts x)) /\
    avlog_inv (avlog_step ts x) /\
    0 < rmax (avlog_trust (snd x)) (sources ts) /\ 0 < rmax (total_trust ts (avlog_trust (snd x))) (claims ts).
  Proof.
    intros (s0 & Hs0 & H2) [Hb Hp]. destruct x as [t b]. cbn [fst snd] in *.
    assert (P0 : 0 < rmax (avlog_trust b) (sources ts)) by (apply (rmax_pos _ _ s0 Hs0); now apply avlog_trust_pos).
    assert (Q1 : forall s, In s (sources ts) -> 0 <= avlog_trust b s) by (intros; now apply avlog_trust_nonneg).
    assert (Q2 : forall c, 0 <= total_trust ts (avlog_trust b) c).
    { intros c. apply rsum_nonneg. intros s Hs. apply Q1. unfold supporters in Hs. apply filter_In in Hs. tauto. }
    assert (Q3 : forall c, solid c -> 0 < total_trust ts (avlog_trust b) c).
    { intros c (s & Hs & Hn). apply (rsum_pos _ _ s).
      - intros y Hy. apply Q1. unfold supporters in Hy. apply filter_In in Hy. tauto.
      - now apply supporters_In.
      - now apply avlog_trust_pos. }
    assert (P1 : 0 < rmax (total_trust ts (avlog_trust b)) (claims ts)).
    { destruct (claims_of_ne ts s0 Hs0) as [c Hc]. apply claims_of_In in Hc.
      apply (rmax_pos _ _ c); [apply claims_In; eauto|]. apply Q3. exists s0. auto. }
    split; [|split; [|auto]].
    - cbn [round]. unfold AlgRep.denote, avlog_upd. cbn [fst snd]. fold (bvec b).
      rewrite avlog_nt, (scT_mv ts impf d R0), tvec_pymax, bvec_pymax by exact NE.
      rewrite tvec_divs, bvec_divs by lra. reflexivity.
    - split; cbn [snd avlog_step]; intros c Hc.
      + apply by_max_nonneg; auto.
      + unfold by_max. apply Rdiv_lt_0_compat; [exact (Q3 c Hc)|exact P1].
  Qed.
  (** all sources make a single claim: every round after the first yields NaN everywhere *)
  Definition nans {A} (l : list A) : vec XR := map (fun _ => NaN) l.
  Lemma rmax_zero {A} (l : list A) f : (forall x, In x l -> f x = 0) -> rmax f l = 0.
  Proof.
    intros H. destruct l as [|a l]; [reflexivity|]. destruct (rmax_In f (a :: l)) as (x & Hx & ->); [discriminate|]. auto.
  Qed.
  Lemma avlog_single_round0 x : (forall s, In s (sources ts) -> length (claims_of ts s) = 1%nat) ->
    round AverageLog d (denote x) = UNext (nans (sources ts)) (tvec (fst x)) (nans (sources ts), nans (claims ts)).
  Proof.
    intros H1. destruct x as [t b]. cbn [round]. unfold AlgRep.denote, avlog_upd. cbn [fst snd]. fold (bvec b).
    assert (Z : forall s, In s (sources ts) -> avlog_trust b s = 0).
    { intros s Hs. unfold avlog_trust, n_claims. rewrite (H1 s Hs). cbn. rewrite ln_1. lra. }
    rewrite avlog_nt, (scT_mv ts impf d R0), tvec_pymax, bvec_pymax by exact NE.
    assert (Z2 : forall c, In c (claims ts) -> total_trust ts (avlog_trust b) c = 0).
    { intros c _. unfold total_trust. rewrite (rsum_ext _ (fun _ => 0)), rsum_zero; [reflexivity|]. intros s Hs. apply Z.
      unfold supporters in Hs. apply filter_In in Hs. tauto. }
    rewrite (rmax_zero _ _ Z), (rmax_zero _ _ Z2).
    assert (E1 : vdivs (tvec (avlog_trust b)) (Fin 0) = nans (sources ts)).
    { unfold vdivs, AlgRep.tvec, nans. rewrite map_map. apply map_ext_in. intros s Hs. rewrite (Z s Hs). cbn. rewrite reqb_refl.
      unfold xsign. rewrite rltb_false by lra. reflexivity. }
    assert (E2 : vdivs (bvec (total_trust ts (avlog_trust b))) (Fin 0) = nans (claims ts)).
    { unfold vdivs, AlgRep.bvec, nans. rewrite map_map. apply map_ext_in. intros s Hs. rewrite (Z2 s Hs). cbn. rewrite reqb_refl.
      unfold xsign. rewrite rltb_false by lra. reflexivity. }
    rewrite E1, E2. reflexivity.
  Qed.
  Lemma xmul_nan_r x : xmul x NaN = NaN. Proof. now destruct x. Qed.
  Lemma fold_nan l : fold_left xadd l NaN = NaN.
  Proof. induction l as [|a l IH]; [reflexivity|exact IH]. Qed.
  Lemma mv_nans {A B} (M : mat XR) (Rw : list A) (C : list B) rel : mrep M Rw C rel (fun _ _ => n_ofZ 1) ->
    (forall a, In a Rw -> exists b, In b C /\ rel a b = true) -> mv M (nans C) = nans Rw.
  Proof.
    intros H Hn. unfold nans. rewrite (mv_rep _ _ _ _ _ _ H). apply map_ext_in. intros a Ha. destruct (Hn a Ha) as (b & Hb & Hr).
    assert (Hf : In b (filter (rel a) C)) by (apply filter_In; auto). destruct (filter (rel a) C) as [|b0 l]; [destruct Hf|].
    cbn. apply fold_nan.
  Qed.
  Lemma pymax_nans {A} (l : list A) : l <> [] -> pymax (nans l) = Some NaN.
  Proof. destruct l as [|a l]; [congruence|]. intros _. cbn. f_equal. induction l as [|b l IH]; [reflexivity|exact IH]. Qed.
  Lemma vdivs_nans {A} (l : list A) x : vdivs (nans l) x = nans l.
  Proof. unfold vdivs, nans. rewrite map_map. apply map_ext. intros _. reflexivity. Qed.
  Lemma avlog_nan_round : round AverageLog d (nans (sources ts), nans (claims ts)) = UNext (nans (sources ts)) (nans (sources ts)) (nans (sources ts), nans (claims ts)).
  Proof.
    cbn [round avlog_upd]. rewrite (mv_nans _ _ _ _ (rep_sc _ _ _ R0)).
    2:{ intros s Hs. apply source_claims in Hs. exact Hs. }
    assert (E : vmul (avlog_weights d) (nans (sources ts)) = nans (sources ts)).
    { rewrite avlog_weights_rep. unfold vmul, nans, AlgRep.tvec. rewrite zipw_map2. reflexivity. }
    rewrite E, (mv_nans _ _ _ _ (mrep_tr _ _ _ _ _ (rep_sc _ _ _ R0))).
    2:{ intros c Hc. destruct (supporters_ne ts c Hc) as [s Hs]. unfold supporters in Hs. apply filter_In in Hs. exists s. tauto. }
    rewrite !pymax_nans by (apply src_ne || apply cl_ne; exact NE). rewrite !vdivs_nans. reflexivity.
  Qed.

  (** ** Investment *)
  Lemma invests_vec t : vdiv (tvec t) (claim_counts d) = tvec (invests ts t).
  Proof. rewrite (claim_counts_rep ts impf d R0). apply tvec_div. intros s Hs. apply Rgt_not_eq. now apply n_claims_pos. Qed.
  Lemma invests_pos t s : (forall s, In s (sources ts) -> 0 < t s) -> In s (sources ts) -> 0 < invests ts t s.
  Proof. intros H Hs. apply Rdiv_lt_0_compat; [auto|now apply n_claims_pos]. Qed.
  Lemma invested_pos t c : (forall s, In s (sources ts) -> 0 < t s) -> In c (claims ts) -> 0 < invested ts t c.
  Proof. intros H Hc. apply total_trust_pos; [|exact Hc]. intros. now apply invests_pos. Qed.
  Lemma claims_of_claims s c : In c (claims_of ts s) -> In c (claims ts).
  Proof. unfold claims_of. rewrite filter_In. tauto. Qed.
  Lemma supporters_sources s c : In s (supporters ts c) -> In s (sources ts).
  Proof. unfold supporters. rewrite filter_In. tauto. Qed.
  Lemma returned_pos x s : all_pos ts x -> In s (sources ts) -> 0 < returned ts x s.
  Proof.
    intros [Ht Hb] Hs. destruct (claims_of_ne ts s Hs) as [c Hc].
    assert (P : forall c, In c (claims_of ts s) -> 0 < snd x c * (invests ts (fst x) s / invested ts (fst x) c)).
    { intros c' Hc'. apply claims_of_claims in Hc'. apply Rmult_lt_0_compat; [auto|]. apply Rdiv_lt_0_compat; [now apply invests_pos|now apply invested_pos]. }
    apply (rsum_pos _ _ c); [intros; left; auto|exact Hc|auto].
  Qed.
  Lemma update_trust_rep x : all_pos ts x ->
    update_trust (tvec (fst x)) (claim_counts d) (sc d) (bvec (snd x)) = Some (tvec (returned ts x)).
  Proof.
    intros [Ht Hb]. unfold update_trust. rewrite invests_vec, (scT_mv ts impf d R0). fold (invested ts (fst x)).
    assert (N0 : forall c, In c (claims ts) -> invested ts (fst x) c <> 0) by (intros c Hc; apply Rgt_not_eq; now apply invested_pos).
    change (bvec (total_trust ts (invests ts (fst x)))) with (bvec (invested ts (fst x))).
    rewrite (tvec_existsb0 ts _ N0). f_equal. change (n_ofZ 1 : XR) with (Fin 1). rewrite bvec_sdivv by exact N0.
    assert (E : mv (mmulc (sc d) (bvec (fun c => 1 / invested ts (fst x) c))) (bvec (snd x)) =
                tvec (fun s => rsum (fun c => (1 * (1 / invested ts (fst x) c)) * snd x c) (claims_of ts s))).
    { unfold AlgRep.bvec at 2. rewrite (mv_rep_fin _ (sources ts) (claims ts) (says ts) (fun _ c => 1 * (1 / invested ts (fst x) c))); [reflexivity|].
      exact (mmulc_rep _ _ _ _ _ (fun c => Fin (1 / invested ts (fst x) c)) (rep_sc _ _ _ R0)). }
    rewrite E, tvec_mul. apply tvec_ext. intros s Hs. unfold returned. rewrite <- rsum_scal. apply rsum_ext. intros c Hc.
    apply claims_of_claims in Hc. field. auto.
  Qed.
  Lemma Rpower_pos a b : 0 < Rpower a b. Proof. apply exp_pos. Qed.
  Lemma inv_round g x : all_pos ts x ->
    round (Investment (Fin g)) d (denote x) = UNext (tvec (fst (inv_step ts g x))) (tvec (fst x)) (denote (inv_step ts g x)) /\
    all_pos ts (inv_step ts g x).
  Proof.
    intros P. assert (Pr : forall s, In s (sources ts) -> 0 < returned ts x s) by (intros; now apply returned_pos).
    assert (Pi : forall c, In c (claims ts) -> 0 < invested ts (returned ts x) c) by (intros; now apply invested_pos).
    split.
    - cbn [round]. unfold AlgRep.denote, inv_upd. rewrite update_trust_rep by exact P.
      rewrite invests_vec, (scT_mv ts impf d R0), bvec_pow by exact Pi. rewrite tvec_pymax, bvec_pymax by exact NE.
      rewrite tvec_divs, bvec_divs by (apply Rgt_not_eq; (apply rmax_src_pos || apply rmax_cl_pos); auto using Rpower_pos). reflexivity.
    - split; cbn [fst snd inv_step]; intros; apply by_max_pos; auto using Rpower_pos.
  Qed.

  (** ** PooledInvestment *)
  Lemma pooled_round g x : all_pos ts x ->
    round (PooledInvestment (Fin g)) d (denote x) = UNext (tvec (fst (pooled_step ts g x))) (tvec (fst x)) (denote (pooled_step ts g x)) /\
    all_pos ts (pooled_step ts g x).
  Proof.
    intros P. assert (Pr : forall s, In s (sources ts) -> 0 < returned ts x s) by (intros; now apply returned_pos).
    assert (Pi : forall c, In c (claims ts) -> 0 < invested ts (returned ts x) c) by (intros; now apply invested_pos).
    set (h := fun c => Rpower (invested ts (returned ts x) c) g).
    assert (Ph : forall c, In c (claims ts) -> 0 < rsum h (rivals ts c)).
    { intros c Hc. apply (rsum_pos _ _ c); [intros; left; apply Rpower_pos|now apply rivals_self|apply Rpower_pos]. }
    assert (Pf : forall c, In c (claims ts) -> 0 < invested ts (returned ts x) c * (h c / rsum h (rivals ts c))).
    { intros c Hc. apply Rmult_lt_0_compat; [auto|]. apply Rdiv_lt_0_compat; [apply Rpower_pos|auto]. }
    split.
    - cbn [round]. unfold AlgRep.denote, pooled_upd. rewrite update_trust_rep by exact P.
      rewrite invests_vec, (scT_mv ts impf d R0), bvec_pow by exact Pi.
      fold (invested ts (returned ts x)). fold h. rewrite (mut_mv ts impf d R0), bvec_div, bvec_mul, tvec_pymax, bvec_pymax by (exact NE || (intros c Hc; apply Rgt_not_eq, Ph, Hc)).
      rewrite tvec_divs, bvec_divs by (apply Rgt_not_eq; (apply rmax_src_pos || apply rmax_cl_pos); auto). reflexivity.
    - split; cbn [fst snd pooled_step]; intros; apply by_max_pos; auto.
  Qed.

  (** ** CRH *)
  Lemma m_stored_in (M : mat XR) i j : m_stored M i j = true -> True. Proof. auto. Qed.
  Lemma crh_loss_rep b i s : nth_error (sources ts) i = Some s -> crh_loss d (bvec b) i = Fin (crh_loss_spec ts b s).
  Proof.
    intros Hi. unfold crh_loss. rewrite (rep_nc _ _ _ R0).
    assert (E : map (fun j => xmul (vsum (map (fun i0 => xmul (m_entry (sc d) i i0) (crh_z d (bvec b) i0 j))
                       (filter (m_stored (sc d) i) (seq 0 (length (claims ts)))))) (Fin 1)) (seq 0 (length (claims ts))) =
                map (fun c' => Fin (rsum (fun c => if beq (fst c) (fst c') then (b c' - (if beq c c' then 1 else 0)) ^ 2 else 0) (claims_of ts s))) (claims ts)).
    { apply map_seq_nth. intros j c' Hj.
      assert (E2 : map (fun i0 => xmul (m_entry (sc d) i i0) (crh_z d (bvec b) i0 j)) (filter (m_stored (sc d) i) (seq 0 (length (claims ts)))) =
                   map (fun c => Fin (if beq (fst c) (fst c') then (b c' - (if beq c c' then 1 else 0)) ^ 2 else 0)) (claims_of ts s)).
      { unfold claims_of. apply filter_seq_nth.
        - intros k c Hc. destruct (rep_sc _ _ _ R0) as (_ & _ & Q). now apply (Q i k s c).
        - intros k c Hc Hsay. destruct (rep_sc _ _ _ R0) as (_ & _ & Q). destruct (Q i k s c Hi Hc) as [_ Qe]. rewrite Qe by assumption.
          unfold crh_z, toarray. destruct (rep_mut _ _ _ R0) as (_ & _ & QM). destruct (QM k j c c' Hc Hj) as [Q1 Q2].
          change (n_ofZ 1 : XR) with (Fin 1).
          assert (Nb : nth j (bvec b) (n_ofZ 0) = Fin (b c')).
          { apply nth_error_nth_eq. unfold AlgRep.bvec. now rewrite nth_error_map, Hj. }
          rewrite Q1, Nb. unfold same_var in *.
          assert (Ek : Nat.eqb k j = beq c c').
          { destruct (Nat.eqb_spec k j) as [->|Nk].
            - replace c' with c by congruence. symmetry. apply beq_refl.
            - symmetry. apply beq_false. intros ->. apply Nk. pose proof (claims_NoDup ts) as ND.
              rewrite <- (pos_nth_error _ _ _ ND Hc). now apply pos_nth_error. }
          rewrite Ek. destruct (beq (fst c) (fst c')) eqn:Eb.
          + rewrite Q2 by reflexivity. destruct (beq c c'); cbn; f_equal; ring.
          + destruct (beq c c'); cbn; f_equal; ring. }
      refine (eq_trans (f_equal (fun z => xmul (@vsum XR z) (Fin 1)) E2) _). rewrite vsum_fin. cbn. f_equal. ring. }
    refine (eq_trans (f_equal (@vsum XR) E) _). rewrite vsum_fin. f_equal.
    rewrite (rsum_swap (fun c' c => if beq (fst c) (fst c') then (b c' - (if beq c c' then 1 else 0)) ^ 2 else 0)).
    unfold crh_loss_spec. apply rsum_ext. intros c _. unfold rivals. now rewrite rsum_filter.
  Qed.
  Lemma crh_loss_nonneg b s : 0 <= crh_loss_spec ts b s.
  Proof. apply rsum_nonneg. intros c _. apply rsum_nonneg. intros c' _. apply pow2_ge_0. Qed.
  Definition crh_alpha (eps : R) (b : claim -> R) (s : S) : R := eps + crh_loss_spec ts b s.
  Lemma crh_alpha_pos eps b s : 0 < eps -> 0 < crh_alpha eps b s.
  Proof. intros H. unfold crh_alpha. pose proof (crh_loss_nonneg b s). lra. Qed.
  Lemma crh_alpha_le eps b s : 0 < eps -> In s (sources ts) -> 0 < crh_alpha eps b s / rsum (crh_alpha eps b) (sources ts) <= 1.
  Proof.
    intros He Hs. pose proof (crh_alpha_pos eps b s He) as P.
    assert (G : crh_alpha eps b s <= rsum (crh_alpha eps b) (sources ts)) by (apply rsum_ge_In; [intros; left; now apply crh_alpha_pos|exact Hs]).
    split; [apply Rdiv_lt_0_compat; lra|]. apply (Rmult_le_reg_r (rsum (crh_alpha eps b) (sources ts))); [lra|].
    unfold Rdiv. rewrite Rmult_assoc, Rinv_l; lra.
  Qed.
  Lemma crh_trust_ge eps x s : 0 < eps -> In s (sources ts) -> eps <= fst (crh_step ts eps x) s.
  Proof.
    intros He Hs. cbn [fst crh_step]. change (fun s0 => eps + crh_loss_spec ts (snd x) s0) with (crh_alpha eps (snd x)).
    change (eps + crh_loss_spec ts (snd x) s) with (crh_alpha eps (snd x) s).
    destruct (crh_alpha_le eps (snd x) s He Hs) as [G1 G2].
    assert (ln (crh_alpha eps (snd x) s / rsum (crh_alpha eps (snd x)) (sources ts)) <= 0).
    { destruct G2 as [G2|G2]; [|rewrite G2, ln_1; lra]. rewrite <- ln_1. left. now apply ln_increasing. }
    lra.
  Qed.
  Lemma crh_total_pos eps x : 0 < eps -> 0 < rsum (fst (crh_step ts eps x)) (sources ts).
  Proof.
    intros He. pose proof (src_ne ts NE) as N. destruct (sources ts) as [|s l] eqn:E; [congruence|]. rewrite <- E in *.
    assert (Hs : In s (sources ts)) by (rewrite E; now left).
    apply (rsum_pos _ _ s); [|exact Hs|].
    - intros y Hy. pose proof (crh_trust_ge eps x y He Hy). lra.
    - pose proof (crh_trust_ge eps x s He Hs). lra.
  Qed.
  Lemma crh_round eps x : 0 < eps ->
    round (CRH (Fin eps)) d (denote x) = UNext (tvec (fst x)) (tvec (fst (crh_step ts eps x))) (denote (crh_step ts eps x)).
  Proof.
    intros He. cbn [round]. unfold AlgRep.denote at 1, crh_upd.
    assert (Ea : map (fun s => @n_add XR (Fin eps) (crh_loss d (bvec (snd x)) s)) (seq 0 (num_sources d)) = tvec (crh_alpha eps (snd x))).
    { rewrite (rep_ns _ _ _ R0). apply map_seq_nth. intros i s Hi. rewrite (crh_loss_rep _ _ _ Hi). reflexivity. }
    rewrite Ea. assert (Es : vsum (tvec (crh_alpha eps (snd x))) = Fin (rsum (crh_alpha eps (snd x)) (sources ts))) by apply vsum_fin.
    rewrite Es. set (A := rsum (crh_alpha eps (snd x)) (sources ts)).
    assert (Et : map (fun u => @n_sub XR (Fin eps) (n_ln (@n_div XR u (Fin A)))) (tvec (crh_alpha eps (snd x))) = tvec (fst (crh_step ts eps x))).
    { unfold AlgRep.tvec. rewrite map_map. apply map_ext_in. intros s Hs. destruct (crh_alpha_le eps (snd x) s He Hs) as [G1 G2]. fold A in G1, G2.
      assert (NA : A <> 0). { intros Z. rewrite Z in G1. unfold Rdiv in G1. rewrite Rinv_0, Rmult_0_r in G1. lra. }
      change (xsub (Fin eps) (xln (xdiv (Fin (crh_alpha eps (snd x) s)) (Fin A))) = Fin (fst (crh_step ts eps x) s)).
      rewrite xdiv_fin, xln_fin by assumption. reflexivity. }
    cbv zeta. rewrite Et, (scT_mv ts impf d R0).
    assert (Eu : vsum (tvec (fst (crh_step ts eps x))) = Fin (rsum (fst (crh_step ts eps x)) (sources ts))) by apply vsum_fin.
    rewrite Eu, bvec_divs; [reflexivity|]. apply Rgt_not_eq. now apply crh_total_pos.
  Qed.

  (** ** UnboundedSums *)
  Definition downscale {A} (l : list A) (f : A -> R) (x : A) : R := if rltb 1000 (rmax f l) then f x / 1000 else f x.
  Definition usums_step (x : rscores) : rscores :=
    let t := total_belief ts (snd x) in (downscale (sources ts) t, downscale (claims ts) (total_trust ts t)).
  Lemma usums_round x :
    round UnboundedSums d (denote x) = UNext (tvec (fst x)) (tvec (total_belief ts (snd x))) (denote (usums_step x)).
  Proof.
    cbn [round]. unfold AlgRep.denote at 1, usums_upd. rewrite (sc_mv ts impf d R0), (scT_mv ts impf d R0).
    unfold rescale1. rewrite tvec_npmax, bvec_npmax by exact NE. change (n_ofZ 1000 : XR) with (Fin 1000).
    f_equal. unfold AlgRep.denote, usums_step. cbn [fst snd].
    change (@n_ltb XR (Fin 1000) (Fin (rmax (total_belief ts (snd x)) (sources ts)))) with (rltb 1000 (rmax (total_belief ts (snd x)) (sources ts))).
    change (@n_ltb XR (Fin 1000) (Fin (rmax (total_trust ts (total_belief ts (snd x))) (claims ts)))) with (rltb 1000 (rmax (total_trust ts (total_belief ts (snd x))) (claims ts))).
    unfold downscale. destruct (rltb 1000 (rmax (total_belief ts (snd x)) (sources ts))), (rltb 1000 (rmax (total_trust ts (total_belief ts (snd x))) (claims ts)));
      rewrite ?tvec_divs, ?bvec_divs by lra; reflexivity.
  Qed.
End AlgRounds.
