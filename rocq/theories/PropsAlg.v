(** Property theorems about the algorithms in exact arithmetic: C31-C33, C35-C39. *)
From Coq Require Import Reals Lra.
From Verif Require Import Base Num Sparse Spec SpecAlg Dataset DatasetProofs DatasetRep Iterators Algorithms Driver Rounds
  AlgRep AlgRounds AlgTF PropsData PropsIter PropsRun.
Local Open Scope R_scope.

Lemma final_ok {F : Num} (a : alg F) it (x y : vec F * vec F) : a <> UnboundedSums -> final a it x = Ok y -> y = x.
Proof. destruct a; cbn [final]; intros Ha; try (intros E; injection E as <-; reflexivity). congruence. Qed.

Section Reports.
  Context {S V W : Type} {ES : Eqb S} {EV : Eqb V} {EW : Eqb W} {T : Type}.
  Notation claim := (V * W)%type.
  Lemma dget_map_fun {K U : Type} `{Eqb K} (t : K -> U) l k : dget (map (fun s => (s, t s)) l) k = if mem k l then Some (t k) else None.
  Proof.
    induction l as [|a l IH]; [reflexivity|]. cbn. rewrite IH. unfold mem. cbn. destruct (beq_spec k a) as [->|N]; cbn; reflexivity.
  Qed.
  Lemma dget_scores_of (cs : list claim) (g : claim -> T) x w : dget (scores_of cs g x) w = if mem (x, w) cs then Some (g (x, w)) else None.
  Proof.
    unfold scores_of. induction cs as [|[y v] cs IH]; [reflexivity|]. cbn [filter fst]. unfold mem in *. cbn [existsb].
    destruct (beq_spec y x) as [->|N].
    - cbn [map dget snd]. destruct (beq_spec w v) as [->|N'].
      + rewrite beq_refl. reflexivity.
      + rewrite IH. rewrite (beq_neq (x, w) (x, v)) by congruence. reflexivity.
    - rewrite IH. rewrite (beq_neq (x, w) (y, v)) by congruence. reflexivity.
  Qed.
  Lemma mem_map_fst (cs : list claim) x w : mem (x, w) cs = true -> mem x (distinct (map fst cs)) = true.
  Proof. intros H. apply mem_In in H. apply mem_In, distinct_In, in_map_iff. exists (x, w). auto. Qed.
  Lemma reports_intro ts (r : result S V W T) t b :
    r_trust r = map (fun s => (s, t s)) (sources ts) -> r_belief r = beliefs_of (claims ts) b -> reports ts r t b.
  Proof.
    intros E1 E2. unfold reports, trust_of, belief_of. rewrite E1, E2. split; [|split; [|split; [|split]]].
    - intros s. apply dget_map_fun.
    - intros [x w]. cbn [fst snd]. unfold beliefs_of. rewrite dget_map_fun. destruct (mem x (distinct (map fst (claims ts)))) eqn:E.
      + apply dget_scores_of.
      + destruct (mem (x, w) (claims ts)) eqn:E'; [|reflexivity]. apply mem_map_fst in E'. congruence.
    - unfold dkeys. rewrite map_map. cbn. rewrite map_id. apply sources_NoDup.
    - unfold dkeys, beliefs_of. rewrite map_map. cbn. rewrite map_id. apply distinct_NoDup.
    - intros x m. unfold beliefs_of. rewrite dget_map_fun. destruct (mem x (distinct (map fst (claims ts)))); [|discriminate]. intros [= <-].
      unfold dkeys, scores_of. rewrite map_map. cbn. pose proof (claims_NoDup ts) as ND. clear E2.
      induction (claims ts) as [|[y v] cs IH]; [constructor|]. inversion ND as [|? ? Hn ND']; subst. cbn [filter fst].
      destruct (beq_spec y x) as [->|N]; [|auto]. cbn. constructor; [|auto].
      intros Hin. apply in_map_iff in Hin. destruct Hin as ([y' v'] & Ev & Hf). apply filter_In in Hf. destruct Hf as [Hf Hb].
      apply beq_eq in Hb. cbn in *. subst. contradiction.
  Qed.
End Reports.

Section PropsAlg.
  Context {S V W : Type} {ES : Eqb S} {EV : Eqb V} {EW : Eqb W}.
  Notation data := (dataset S V W XR).
  Notation claim := (V * W)%type.
  Notation rscores := (@rscores S V W).
  Notation result := (result S V W xr).

  Lemma reports_denote ts (r : result) (x : rscores) : r_trust r = tdict ts (F:=XR) (fst (denote ts x)) -> r_belief r = bdict ts (F:=XR) (snd (denote ts x)) ->
    reports_real ts r x.
  Proof.
    intros E1 E2. apply reports_intro.
    - rewrite E1. apply tdict_tvec.
    - rewrite E2. apply bdict_bvec.
  Qed.
  (** reading off single scores *)
  Lemma reports_trust ts (r : result) x s : reports_real ts r x -> In s (sources ts) -> trust_of r s = Some (Fin (fst x s)).
  Proof. intros (H & _) Hs. rewrite H. apply mem_In in Hs. now rewrite Hs. Qed.
  Lemma reports_belief ts (r : result) x c : reports_real ts r x -> In c (claims ts) -> belief_of r c = Some (Fin (snd x c)).
  Proof. intros (_ & H & _) Hs. rewrite H. apply mem_In in Hs. now rewrite Hs. Qed.
  (** every score of the result lies between two bounds *)
  Definition trusts_in (r : result) (P : R -> Prop) : Prop := forall s v, trust_of r s = Some v -> exists q, v = Fin q /\ P q.
  Definition beliefs_in (r : result) (P : R -> Prop) : Prop := forall c v, belief_of r c = Some v -> exists q, v = Fin q /\ P q.
  Lemma reports_trusts_in ts r x (P : R -> Prop) : reports_real ts r x -> (forall s, In s (sources ts) -> P (fst x s)) -> trusts_in r P.
  Proof.
    intros (H & _) HP s v. rewrite H. destruct (mem s (sources ts)) eqn:E; [|discriminate]. intros [= <-]. apply mem_In in E. eauto.
  Qed.
  Lemma reports_beliefs_in ts r x (P : R -> Prop) : reports_real ts r x -> (forall s, In s (claims ts) -> P (snd x s)) -> beliefs_in r P.
  Proof.
    intros (_ & H & _) HP s v. rewrite H. destruct (mem s (claims ts)) eqn:E; [|discriminate]. intros [= <-]. apply mem_In in E. eauto.
  Qed.

  Section OneData.
    Variables (b : bool) (f : option (V -> W -> W -> option R)) (ts : list (S * V * W)) (d : data).
    Hypothesis Hb : build b (real_imp f) ts = Ok d.
    Let R0 : ds_rep ts (real_imp f) d := build_rep _ _ _ _ Hb.

    Lemma scores_refine a x0 step (Inv : rscores -> Prop) : ts <> [] -> Inv x0 ->
      (forall x, Inv x -> (exists u v, round a d (denote ts x) = UNext u v (denote ts (step x))) /\ Inv (step x)) ->
      forall k, scores a d (denote ts x0) k = denote ts (rounds step x0 k) /\ Inv (rounds step x0 k) /\ stops a d (denote ts x0) k = false.
    Proof.
      intros NE I0 Hstep k. induction k as [|k (E & I & _)].
      - split; [reflexivity|]. split; [exact I0|]. unfold stops. cbn [scores]. destruct (Hstep x0 I0) as ((u & v & ->) & _). reflexivity.
      - cbn [scores rounds]. rewrite E. destruct (Hstep _ I) as ((u & v & ->) & I'). split; [reflexivity|]. split; [exact I'|].
        unfold stops. cbn [scores]. rewrite E. 
        destruct (Hstep _ I) as ((u' & v' & E') & _). rewrite E'. destruct (Hstep _ I') as ((u2 & v2 & ->) & _). reflexivity.
    Qed.
    Lemma run_refine clock fuel a p it lg r o' x0 step (Inv : rscores -> Prop) : a <> UnboundedSums ->
      init a p d = Some (denote ts x0) -> Inv x0 ->
      (forall x, ts <> [] -> Inv x -> (exists u v, round a d (denote ts x) = UNext u v (denote ts (step x))) /\ Inv (step x)) ->
      run clock fuel (AObj a p it lg) d = (Ok r, o') ->
      ts <> [] /\ exists k, r_iterations r = Some k /\ reports_real ts r (rounds step x0 k) /\ Inv (rounds step x0 k).
    Proof.
      intros Ha E0 I0 Hstep H. apply (run_cases b (real_imp f) ts d Hb) in H. destruct H as (NE & x0' & k & it' & E0' & El & x & Ef & ->).
      split; [exact NE|]. exists k. split; [reflexivity|]. rewrite E0 in E0'. injection E0' as <-.
      destruct (scores_refine a x0 step Inv NE I0 (fun x => Hstep x NE) k) as (Es & Ik & _). split; [|exact Ik].
      assert (Ex : x = scores a d (denote ts x0) k) by exact (final_ok a it' _ x Ha Ef). rewrite Es in Ex. subst x.
      apply reports_denote; reflexivity.
    Qed.
    (** no early finish: a fixed number of rounds is performed in full *)
    Lemma run_fixed_full clock fuel a p n st lg r o' x0 step (Inv : rscores -> Prop) : a <> UnboundedSums ->
      init a p d = Some (denote ts x0) -> Inv x0 ->
      (forall x, ts <> [] -> Inv x -> (exists u v, round a d (denote ts x) = UNext u v (denote ts (step x))) /\ Inv (step x)) ->
      run clock fuel (AObj a p (IFixed n st) lg) d = (Ok r, o') -> r_iterations r = Some (Z.to_nat n).
    Proof.
      intros Ha E0 I0 Hstep H. apply (run_cases b (real_imp f) ts d Hb) in H. destruct H as (NE & x0' & k & it' & E0' & El & x & Ef & ->).
      rewrite E0 in E0'. injection E0' as <-. cbn. f_equal.
      assert (NS : forall j, stops a d (denote ts x0) j = false) by (intros j; apply (scores_refine a x0 step Inv NE I0 (fun x => Hstep x NE) j)).
      assert (G : forall fuel j, (Z.of_nat j <= Z.max 0 n)%Z -> it_loop (cmp1 a d (denote ts x0)) (cmp2 a d (denote ts x0)) (stops a d (denote ts x0)) fuel (IFixed n j) j = ((Ok tt, k), it') ->
         k = Z.to_nat n).
      { clear -NS. induction fuel as [|fu IH]; intros j Hj H; [discriminate|]. cbn [it_loop finished] in H.
        destruct (Z.leb_spec n (Z.of_nat j)); [injection H as <- _; lia|]. rewrite NS in H. cbn [compare] in H. apply IH in H; [exact H|lia]. }
      apply (G fuel 0%nat); [lia|exact El].
    Qed.

    (** ** C31 majority voting *)
    Theorem C31_voting clock : ts <> [] -> exists r, voting_run clock d = Ok r /\ r_iterations r = None /\
      reports_real ts r ((fun _ => 1), (fun c => n_supporters ts c / rmax (n_supporters ts) (claims ts))).
    Proof.
      intros NE. unfold voting_run. destruct (Nat.eqb_spec (num_claims d) 0) as [Z|_]; [now apply (nc_pos ts (real_imp f) d R0 NE) in Z|].
      rewrite (source_counts_rep ts (real_imp f) d R0), bvec_npmax by exact NE.
      assert (P : 0 < rmax (n_supporters ts) (claims ts)) by (apply rmax_cl_pos; [exact NE|intros; now apply n_supporters_pos]).
      rewrite bvec_divs by lra. change (repeat (n_ofZ 1 : XR) (num_sources d)) with (@vones XR (num_sources d)). rewrite (vones_s ts (real_imp f) d R0).
      rewrite (trust_dict_vec ts (real_imp f) d R0), (belief_dict_vec ts (real_imp f) d R0).
      - eexists. split; [reflexivity|]. split; [reflexivity|]. apply reports_denote; reflexivity.
      - unfold bvec. rewrite map_length. symmetry. apply (rep_nc _ _ _ R0).
      - unfold tvec. rewrite map_length. symmetry. apply (rep_ns _ _ _ R0).
    Qed.
    (** beliefs are in (0,1], some claim has belief 1, and beliefs are ordered as the numbers of votes *)
    Theorem C31_range clock r : voting_run clock d = Ok r ->
      trusts_in r (fun q => q = 1) /\ beliefs_in r (fun q => 0 < q <= 1) /\ (exists c, belief_of r c = Some (Fin 1)) /\
      (forall c c' q q', belief_of r c = Some (Fin q) -> belief_of r c' = Some (Fin q') ->
         (q <= q' <-> (length (supporters ts c) <= length (supporters ts c'))%nat)).
    Proof.
      intros H. assert (NE : ts <> []).
      { intros ->. destruct (C26_empty b (real_imp f) [] d Hb clock 0 (AObj Sums FIXED (IFixed 0 0) None)) as [Q _]. destruct (Q eq_refl) as (_ & _ & Q'). congruence. }
      destruct (C31_voting clock NE) as (r' & H' & _ & Rp). rewrite H in H'. injection H' as <-.
      assert (P : forall c, In c (claims ts) -> 0 < n_supporters ts c) by (intros; now apply n_supporters_pos).
      pose proof (rmax_cl_pos ts NE _ P) as Pm.
      split; [|split; [|split]].
      - eapply reports_trusts_in; [exact Rp|]. reflexivity.
      - eapply reports_beliefs_in; [exact Rp|]. intros c Hc. apply (by_max_pos (claims ts) (n_supporters ts)); auto.
      - destruct (by_max_attained (claims ts) (n_supporters ts) (cl_ne ts NE) Pm) as (c & Hc & E). exists c.
        etransitivity; [exact (reports_belief ts r _ c Rp Hc)|]. cbn [snd]. unfold by_max in E. now rewrite E.
      - intros c c' q q' Hq Hq'.
        destruct Rp as (_ & Rb & _). rewrite Rb in Hq, Hq'. destruct (mem c (claims ts)); [|discriminate]. destruct (mem c' (claims ts)); [|discriminate].
        cbn [snd] in *. injection Hq as <-. injection Hq' as <-. unfold n_supporters at 1 3. split.
        + intros L. apply INR_le. apply (Rmult_le_reg_r (/ rmax (n_supporters ts) (claims ts))); [now apply Rinv_0_lt_compat|exact L].
        + intros L. apply Rmult_le_compat_r; [left; now apply Rinv_0_lt_compat|]. now apply le_INR.
    Qed.

    (** ** C32 prior beliefs: what is reported when no round is performed *)
    Theorem C32_priors_reported clock fuel a p st lg r o' : (a = Sums \/ a = AverageLog \/ (exists g, a = Investment g) \/ (exists g, a = PooledInvestment g)) ->
      run clock fuel (AObj a p (IFixed 0 st) lg) d = (Ok r, o') ->
      exists bel, prior_spec ts p = Some bel /\ (forall c, belief_of r c = if mem c (claims ts) then Some (Fin (bel c)) else None).
    Proof.
      intros Ha H. apply (run_cases b (real_imp f) ts d Hb) in H. destruct H as (NE & x0' & k & it' & E0 & El & x & Ef & ->).
      assert (Ei : exists bel t, prior_spec ts p = Some bel /\ x0' = denote ts (t, bel)).
      { rewrite (init_rep ts (real_imp f) d R0 NE) in E0 by (destruct Ha as [->|[->|[(g & ->)|(g & ->)]]]; exact I).
        destruct Ha as [->|[->|[(g & ->)|(g & ->)]]]; cbn [start] in E0; (destruct (prior_spec ts p) as [bel|]; [|discriminate]); cbn in E0; injection E0 as <-; eauto. }
      destruct Ei as (bel & t & E1 & ->). exists bel. split; [exact E1|].
      assert (k = 0%nat).
      { destruct fuel as [|fu]; [discriminate|]. cbn [reset it_loop finished] in El. cbn in El. injection El as <- _. reflexivity. }
      subst k. cbn [scores] in Ef. assert (Ex : x = denote ts (t, bel)) by (apply (final_ok a it' _ x); [destruct Ha as [->|[->|[(g & ->)|(g & ->)]]]; discriminate|exact Ef]). subst x.
      intros c. assert (Rp : reports_real ts (Result (tdict ts (F:=XR) (fst (denote ts (t, bel)))) (bdict ts (F:=XR) (snd (denote ts (t, bel)))) (n_sub (clock 1%nat) (clock 0%nat)) (Some 0%nat)) (t, bel))
        by (apply reports_denote; reflexivity).
      apply Rp.
    Qed.
    Theorem C32_bad_prior clock fuel a it lg : ts <> [] -> (a = Sums \/ a = AverageLog \/ (exists g, a = Investment g) \/ (exists g, a = PooledInvestment g) \/ a = UnboundedSums) ->
      fst (run clock fuel (AObj a BadPrior it lg) d) = Err InvalidPriorError.
    Proof.
      intros NE Ha. rewrite (run_char clock ts (real_imp f) d R0 NE). destruct Ha as [->|[->|[(g & ->)|[(g & ->)| ->]]]]; reflexivity.
    Qed.

    (** ** C33 Sums *)
    Lemma init_start a p x0 : ts <> [] -> (match a with TruthFinder _ _ t0 => is_fin t0 | _ => True end) -> start ts a p = Some x0 -> init a p d = Some (denote ts x0).
    Proof. intros NE Hf E. rewrite (init_rep ts (real_imp f) d R0 NE) by exact Hf. now rewrite E. Qed.
    Lemma run_has_start clock fuel a p it lg r o' : (match a with TruthFinder _ _ t0 => is_fin t0 | _ => True end) ->
      run clock fuel (AObj a p it lg) d = (Ok r, o') -> ts <> [] /\ exists x0, start ts a p = Some x0.
    Proof.
      intros Hf H. apply (run_cases b (real_imp f) ts d Hb) in H. destruct H as (NE & x0 & k & it' & E0 & _). split; [exact NE|].
      rewrite (init_rep ts (real_imp f) d R0 NE) in E0 by exact Hf. destruct (start ts a p); [eauto|discriminate].
    Qed.
    Lemma start_belief_pos a p x0 : (a = Sums \/ a = AverageLog \/ (exists g, a = Investment g) \/ (exists g, a = PooledInvestment g) \/ a = UnboundedSums) ->
      start ts a p = Some x0 -> forall c, In c (claims ts) -> 0 < snd x0 c.
    Proof.
      intros Ha E. assert (Q : exists t bel, prior_spec ts p = Some bel /\ x0 = (t, bel)).
      { destruct Ha as [->|[->|[(g & ->)|[(g & ->)| ->]]]]; cbn in E; (destruct (prior_spec ts p); [|discriminate]); injection E as <-; eauto. }
      destruct Q as (t & bel & E' & ->). exact (prior_pos ts p bel E').
    Qed.
    Definition belief_pos (x : rscores) : Prop := forall c, In c (claims ts) -> 0 < snd x c.
    Theorem C33_sums_recurrence clock fuel p it lg r o' : run clock fuel (AObj Sums p it lg) d = (Ok r, o') ->
      exists x0 k, start ts Sums p = Some x0 /\ r_iterations r = Some k /\ reports_real ts r (rounds (sums_step ts) x0 k).
    Proof.
      intros H. destruct (run_has_start clock fuel Sums p it lg r o' I H) as (NE & x0 & E0).
      destruct (run_refine clock fuel Sums p it lg r o' x0 (sums_step ts) belief_pos) as (_ & k & Ek & Rk & _).
      - discriminate.
      - now apply init_start.
      - intros c Hc. exact (start_belief_pos Sums p x0 (or_introl eq_refl) E0 c Hc).
      - intros x _ Ix. destruct (sums_round ts (real_imp f) d R0 NE x Ix) as [E P]. split; [eauto|]. exact (proj2 P).
      - exact H.
      - eauto.
    Qed.
    Lemma sums_rounds_pos x0 k : ts <> [] -> belief_pos x0 -> belief_pos (rounds (sums_step ts) x0 k) /\ (k <> 0%nat -> all_pos ts (rounds (sums_step ts) x0 k)).
    Proof.
      intros NE H. induction k as [|k [IH _]]; [split; [exact H|congruence]|].
      destruct (sums_round ts (real_imp f) d R0 NE _ IH) as [_ P]. split; [exact (proj2 P)|]. intros _. exact P.
    Qed.
    (** after at least one round, scores lie in (0,1] and the largest trust and the largest belief are 1 *)
    Theorem C33_range clock fuel p it lg r o' k : run clock fuel (AObj Sums p it lg) d = (Ok r, o') -> r_iterations r = Some k -> k <> 0%nat ->
      trusts_in r (fun q => 0 < q <= 1) /\ beliefs_in r (fun q => 0 < q <= 1) /\
      (exists s, trust_of r s = Some (Fin 1)) /\ (exists c, belief_of r c = Some (Fin 1)).
    Proof.
      intros H Hk Hk0. destruct (run_has_start clock fuel Sums p it lg r o' I H) as (NE & _).
      destruct (C33_sums_recurrence _ _ _ _ _ _ _ H) as (x0 & k' & E0 & Ek & Rp). rewrite Hk in Ek. injection Ek as <-.
      destruct k as [|k]; [congruence|]. destruct (sums_rounds_pos x0 k NE (start_belief_pos Sums p x0 (or_introl eq_refl) E0)) as [P _].
      set (x := rounds (sums_step ts) x0 k) in *. cbn [rounds] in Rp. fold x in Rp.
      assert (P1 : forall s, In s (sources ts) -> 0 < total_belief ts (snd x) s) by (intros; now apply total_belief_pos).
      assert (P2 : forall c, In c (claims ts) -> 0 < total_trust ts (total_belief ts (snd x)) c) by (intros; now apply total_trust_pos).
      split; [|split; [|split]].
      - eapply reports_trusts_in; [exact Rp|]. intros s Hs. cbn [fst sums_step]. now apply by_max_pos.
      - eapply reports_beliefs_in; [exact Rp|]. intros s Hs. cbn [snd sums_step]. now apply by_max_pos.
      - destruct (by_max_attained (sources ts) (total_belief ts (snd x)) (src_ne ts NE) (rmax_src_pos ts NE _ P1)) as (s & Hs & E).
        exists s. etransitivity; [exact (reports_trust ts r _ s Rp Hs)|]. cbn [fst sums_step]. now rewrite E.
      - destruct (by_max_attained (claims ts) _ (cl_ne ts NE) (rmax_cl_pos ts NE _ P2)) as (s & Hs & E).
        exists s. etransitivity; [exact (reports_belief ts r _ s Rp Hs)|]. cbn [snd sums_step]. now rewrite E.
    Qed.
    (** normalising once at the end is enough: k rounds of Sums are k rounds of the plain recurrence, then one division *)
    Theorem C33_normalise_once clock fuel p it lg r o' k : run clock fuel (AObj Sums p it lg) d = (Ok r, o') -> r_iterations r = Some k -> k <> 0%nat ->
      exists x0, start ts Sums p = Some x0 /\
        reports_real ts r (by_max (sources ts) (fst (rounds (plain_step ts) x0 k)), by_max (claims ts) (snd (rounds (plain_step ts) x0 k))).
    Proof.
      intros H Hk Hk0. destruct (run_has_start clock fuel Sums p it lg r o' I H) as (NE & _).
      destruct (C33_sums_recurrence _ _ _ _ _ _ _ H) as (x0 & k' & E0 & Ek & Rp). rewrite Hk in Ek. injection Ek as <-.
      exists x0. split; [exact E0|].
      pose proof (start_belief_pos Sums p x0 (or_introl eq_refl) E0) as P0.
      assert (Sc : forall k, exists q, 0 < q /\ forall c, In c (claims ts) -> snd (rounds (plain_step ts) x0 k) c = q * snd (rounds (sums_step ts) x0 k) c).
      { clear k Hk Hk0 Rp. induction k as [|k (q & Hq & IH)]; [exists 1; split; [lra|]; intros; cbn; lra|].
        cbn [rounds]. destruct (sums_rounds_pos x0 k NE P0) as [P _]. set (x := rounds (sums_step ts) x0 k) in *. set (y := rounds (plain_step ts) x0 k) in *.
        assert (P1 : forall s, In s (sources ts) -> 0 < total_belief ts (snd x) s) by (intros; now apply total_belief_pos).
        assert (P2 : forall c, In c (claims ts) -> 0 < total_trust ts (total_belief ts (snd x)) c) by (intros; now apply total_trust_pos).
        pose proof (rmax_cl_pos ts NE _ P2) as Pm.
        assert (E1 : forall s, total_belief ts (snd y) s = q * total_belief ts (snd x) s).
        { intros s. unfold total_belief. rewrite <- rsum_scal. apply rsum_ext. intros c Hc. apply IH. unfold claims_of in Hc. apply filter_In in Hc. tauto. }
        exists (q * rmax (total_trust ts (total_belief ts (snd x))) (claims ts)). split; [now apply Rmult_lt_0_compat|].
        intros c Hc. cbn [snd sums_step plain_step]. unfold total_trust at 1. rewrite (rsum_ext _ (fun s => q * total_belief ts (snd x) s)) by (intros; apply E1).
        rewrite rsum_scal. unfold by_max. change (rsum (total_belief ts (snd x)) (supporters ts c)) with (total_trust ts (total_belief ts (snd x)) c). field. lra. }
      destruct k as [|k]; [congruence|]. destruct (Sc k) as (q & Hq & IH). destruct (sums_rounds_pos x0 k NE P0) as [P _]. cbn [rounds] in *.
      set (x := rounds (sums_step ts) x0 k) in *. set (y := rounds (plain_step ts) x0 k) in *.
      assert (P1 : forall s, In s (sources ts) -> 0 < total_belief ts (snd x) s) by (intros; now apply total_belief_pos).
      assert (P2 : forall c, In c (claims ts) -> 0 < total_trust ts (total_belief ts (snd x)) c) by (intros; now apply total_trust_pos).
      assert (E1 : forall s, total_belief ts (snd y) s = q * total_belief ts (snd x) s).
      { intros s. unfold total_belief. rewrite <- rsum_scal. apply rsum_ext. intros c Hc. apply IH. unfold claims_of in Hc. apply filter_In in Hc. tauto. }
      assert (E2 : forall c, total_trust ts (total_belief ts (snd y)) c = q * total_trust ts (total_belief ts (snd x)) c).
      { intros c. unfold total_trust. rewrite <- rsum_scal. apply rsum_ext. intros s Hs. apply E1. }
      destruct Rp as (Ra & Rb & Rc). split; [|split; [|exact Rc]].
      - intros s. rewrite Ra. destruct (mem s (sources ts)) eqn:Em; [|reflexivity]. do 2 f_equal. cbn [fst sums_step plain_step]. unfold by_max.
        rewrite (rmax_ext (total_belief ts (snd y)) (fun s => q * total_belief ts (snd x) s)) by (intros; apply E1). rewrite rmax_scal by lra. rewrite E1.
        pose proof (rmax_src_pos ts NE _ P1). field. lra.
      - intros c. rewrite Rb. destruct (mem c (claims ts)) eqn:Em; [|reflexivity]. do 2 f_equal. cbn [snd sums_step plain_step]. unfold by_max.
        rewrite (rmax_ext (total_trust ts (total_belief ts (snd y))) (fun s => q * total_trust ts (total_belief ts (snd x)) s)) by (intros; apply E2). rewrite rmax_scal by lra. rewrite E2.
        pose proof (rmax_cl_pos ts NE _ P2). field. lra.
    Qed.

    (** ** C35 AverageLog *)
    Definition someone_claims_two : Prop := exists s, In s (sources ts) /\ (2 <= length (claims_of ts s))%nat.
    Theorem C35_avlog_recurrence clock fuel p it lg r o' : someone_claims_two -> run clock fuel (AObj AverageLog p it lg) d = (Ok r, o') ->
      exists x0 k, start ts AverageLog p = Some x0 /\ r_iterations r = Some k /\ reports_real ts r (rounds (avlog_step ts) x0 k) /\
        avlog_inv ts (rounds (avlog_step ts) x0 k).
    Proof.
      intros H2 H. destruct (run_has_start clock fuel AverageLog p it lg r o' I H) as (NE & x0 & E0).
      destruct (run_refine clock fuel AverageLog p it lg r o' x0 (avlog_step ts) (avlog_inv ts)) as (_ & k & Ek & Rk & Ik).
      - discriminate.
      - now apply init_start.
      - pose proof (start_belief_pos AverageLog p x0 (or_intror (or_introl eq_refl)) E0) as P. split.
        + intros c Hc. left. now apply P.
        + intros c (s & Hs & _). apply P. apply claims_In. eauto.
      - intros x _ Ix. destruct (avlog_round ts (real_imp f) d R0 NE x H2 Ix) as (E & P & _). split; [eauto|exact P].
      - exact H.
      - eauto 6.
    Qed.
    Theorem C35_range clock fuel p it lg r o' k : someone_claims_two -> run clock fuel (AObj AverageLog p it lg) d = (Ok r, o') ->
      r_iterations r = Some k -> k <> 0%nat ->
      trusts_in r (fun q => 0 <= q <= 1) /\ beliefs_in r (fun q => 0 <= q <= 1) /\
      (exists s, trust_of r s = Some (Fin 1)) /\ (exists c, belief_of r c = Some (Fin 1)).
    Proof.
      intros H2 H Hk Hk0. destruct (run_has_start clock fuel AverageLog p it lg r o' I H) as (NE & _).
      destruct (C35_avlog_recurrence _ _ _ _ _ _ _ H2 H) as (x0 & k' & E0 & Ek & Rp & _). rewrite Hk in Ek. injection Ek as <-.
      destruct k as [|k]; [congruence|].
      assert (Ix : avlog_inv ts (rounds (avlog_step ts) x0 k)).
      { clear Hk Hk0 Rp. pose proof (start_belief_pos AverageLog p x0 (or_intror (or_introl eq_refl)) E0) as P. induction k as [|k IH].
        - split; [intros c Hc; left; now apply P|]. intros c (s & Hs & _). apply P. apply claims_In. eauto.
        - cbn [rounds]. now destruct (avlog_round ts (real_imp f) d R0 NE _ H2 IH) as (_ & Q & _). }
      set (x := rounds (avlog_step ts) x0 k) in *. cbn [rounds] in Rp. fold x in Rp.
      destruct (avlog_round ts (real_imp f) d R0 NE x H2 Ix) as (_ & _ & Pm & Pm').
      assert (Q1 : forall s, In s (sources ts) -> 0 <= avlog_trust ts (snd x) s) by (intros; apply avlog_trust_nonneg; [apply Ix|assumption]).
      assert (Q2 : forall c, In c (claims ts) -> 0 <= total_trust ts (avlog_trust ts (snd x)) c).
      { intros c _. apply rsum_nonneg. intros s Hs. apply Q1. now apply supporters_sources in Hs. }
      split; [|split; [|split]].
      - eapply reports_trusts_in; [exact Rp|]. intros s Hs. exact (by_max_nonneg (sources ts) (avlog_trust ts (snd x)) s Q1 Pm Hs).
      - eapply reports_beliefs_in; [exact Rp|]. intros s Hs. exact (by_max_nonneg (claims ts) (total_trust ts (avlog_trust ts (snd x))) s Q2 Pm' Hs).
      - destruct (by_max_attained (sources ts) (avlog_trust ts (snd x)) (src_ne ts NE) Pm) as (s & Hs & E).
        exists s. etransitivity; [exact (reports_trust ts r _ s Rp Hs)|]. change (fst (avlog_step ts x) s) with (by_max (sources ts) (avlog_trust ts (snd x)) s). now rewrite E.
      - destruct (by_max_attained (claims ts) _ (cl_ne ts NE) Pm') as (s & Hs & E).
        exists s. etransitivity; [exact (reports_belief ts r _ s Rp Hs)|]. change (snd (avlog_step ts x) s) with (by_max (claims ts) (total_trust ts (avlog_trust ts (snd x))) s). now rewrite E.
    Qed.
    (** If every source makes a single claim, all scores are NaN after any round. *)
    Theorem C35_single_claims_nan clock fuel p it lg r o' k : ~ someone_claims_two -> run clock fuel (AObj AverageLog p it lg) d = (Ok r, o') ->
      r_iterations r = Some k -> k <> 0%nat ->
      reports ts r (fun _ => NaN) (fun _ => NaN).
    Proof.
      intros H1 H Hk Hk0. destruct (run_has_start clock fuel AverageLog p it lg r o' I H) as (NE & x0 & E0).
      assert (H1' : forall s, In s (sources ts) -> length (claims_of ts s) = 1%nat).
      { intros s Hs. destruct (claims_of_ne ts s Hs) as [c Hc]. destruct (Nat.lt_ge_cases 1 (length (claims_of ts s))) as [L|L]; [exfalso; apply H1; exists s; split; [exact Hs|lia]|].
        destruct (claims_of ts s); [destruct Hc|cbn in *; lia]. }
      apply (run_cases b (real_imp f) ts d Hb) in H. destruct H as (_ & x0' & k' & it' & E0' & El & x & Ef & ->).
      cbn in Hk. injection Hk as ->. pose proof (eq_trans (eq_sym (init_start AverageLog p x0 NE I E0)) E0') as E1. injection E1 as <-.
      assert (Sc : forall j, scores AverageLog d (denote ts x0) (Datatypes.S j) = (nans (sources ts), nans (claims ts))).
      { induction j as [|j IH].
        - cbn [scores]. rewrite (avlog_single_round0 ts (real_imp f) d R0 NE x0 H1'). reflexivity.
        - cbn [scores] in *. rewrite IH. rewrite (avlog_nan_round ts (real_imp f) d R0 NE). reflexivity. }
      destruct k as [|k]; [congruence|]. cbn [final] in Ef. rewrite Sc in Ef. injection Ef as <-. cbn [fst snd].
      assert (N1 : forall (s : S), In s (sources ts) -> nth (pos s (sources ts)) (nans (sources ts)) (n_ofZ 0) = NaN).
      { intros s Hs. apply nth_error_nth_eq. unfold nans. now rewrite nth_error_map, (nth_error_pos _ _ Hs). }
      assert (N2 : forall c, In c (claims ts) -> nth (pos c (claims ts)) (nans (claims ts)) (n_ofZ 0) = NaN).
      { intros s Hs. apply nth_error_nth_eq. unfold nans. now rewrite nth_error_map, (nth_error_pos _ _ Hs). }
      apply reports_intro; cbn [r_trust r_belief].
      - apply map_ext_in. intros s Hs. f_equal. now apply N1.
      - unfold bdict, beliefs_of. apply map_ext. intros x. f_equal. unfold scores_of. apply map_ext_in. intros c Hc. apply filter_In in Hc. f_equal. now apply N2.
    Qed.

    (** ** C36 Investment *)
    Lemma start_all_pos a p x0 : ((exists g, a = Investment g) \/ (exists g, a = PooledInvestment g)) -> start ts a p = Some x0 -> all_pos ts x0.
    Proof.
      intros Ha E. split.
      - intros s _. destruct Ha as [(g & ->)|(g & ->)]; cbn in E; (destruct (prior_spec ts p); [|discriminate]); injection E as <-; cbn; lra.
      - apply (start_belief_pos a p x0); [tauto|exact E].
    Qed.
    Theorem C36_investment_recurrence clock fuel g p it lg r o' : run clock fuel (AObj (Investment (Fin g)) p it lg) d = (Ok r, o') ->
      exists x0 k, start ts (Investment (Fin g)) p = Some x0 /\ r_iterations r = Some k /\ reports_real ts r (rounds (inv_step ts g) x0 k) /\
        all_pos ts (rounds (inv_step ts g) x0 k) /\ (forall n st, it = IFixed n st -> k = Z.to_nat n).
    Proof.
      intros H. destruct (run_has_start clock fuel (Investment (Fin g)) p it lg r o' I H) as (NE & x0 & E0).
      assert (A1 : Investment (Fin g) <> UnboundedSums) by discriminate.
      assert (A2 : init (Investment (Fin g)) p d = Some (denote ts x0)) by now apply init_start.
      assert (A3 : all_pos ts x0) by (apply (start_all_pos (Investment (Fin g)) p); [eauto|exact E0]).
      assert (A4 : forall x, ts <> [] -> all_pos ts x -> (exists u v, round (Investment (Fin g)) d (denote ts x) = UNext u v (denote ts (inv_step ts g x))) /\ all_pos ts (inv_step ts g x)).
      { intros x _ Ix. destruct (inv_round ts (real_imp f) d R0 NE g x Ix) as [E P]. split; [eauto|exact P]. }
      destruct (run_refine clock fuel (Investment (Fin g)) p it lg r o' x0 (inv_step ts g) (all_pos ts) A1 A2 A3 A4 H) as (_ & k & Ek & Rk & Ik).
      exists x0, k. repeat (split; [assumption|]). intros n st ->.
      pose proof (run_fixed_full clock fuel (Investment (Fin g)) p n st lg r o' x0 (inv_step ts g) (all_pos ts) A1 A2 A3 A4 H). congruence.
    Qed.
    Lemma inv_rounds_pos g x0 k : ts <> [] -> all_pos ts x0 -> all_pos ts (rounds (inv_step ts g) x0 k).
    Proof. intros NE H. induction k as [|k IH]; [exact H|]. exact (proj2 (inv_round ts (real_imp f) d R0 NE g _ IH)). Qed.
    Lemma pooled_rounds_pos g x0 k : ts <> [] -> all_pos ts x0 -> all_pos ts (rounds (pooled_step ts g) x0 k).
    Proof. intros NE H. induction k as [|k IH]; [exact H|]. exact (proj2 (pooled_round ts (real_imp f) d R0 NE g _ IH)). Qed.
    Theorem C36_range clock fuel g p it lg r o' k : run clock fuel (AObj (Investment (Fin g)) p it lg) d = (Ok r, o') -> r_iterations r = Some k -> k <> 0%nat ->
      trusts_in r (fun q => 0 < q <= 1) /\ beliefs_in r (fun q => 0 < q <= 1) /\
      (exists s, trust_of r s = Some (Fin 1)) /\ (exists c, belief_of r c = Some (Fin 1)).
    Proof.
      intros H Hk Hk0. destruct (run_has_start clock fuel (Investment (Fin g)) p it lg r o' I H) as (NE & _).
      destruct (C36_investment_recurrence _ _ _ _ _ _ _ _ H) as (x0 & k' & E0 & Ek & Rp & _). rewrite Hk in Ek. injection Ek as <-.
      destruct k as [|k]; [congruence|].
      assert (Px : all_pos ts (rounds (inv_step ts g) x0 k)) by (apply inv_rounds_pos; [exact NE|]; apply (start_all_pos (Investment (Fin g)) p); [eauto|exact E0]).
      set (x := rounds (inv_step ts g) x0 k) in *. cbn [rounds] in Rp. fold x in Rp.
      assert (P1 : forall s, In s (sources ts) -> 0 < returned ts x s) by (intros; now apply returned_pos).
      assert (P2 : forall c, In c (claims ts) -> 0 < Rpower (invested ts (returned ts x) c) g) by (intros; apply Rpower_pos).
      split; [|split; [|split]].
      - eapply reports_trusts_in; [exact Rp|]. intros s Hs. cbn [fst inv_step]. now apply by_max_pos.
      - eapply reports_beliefs_in; [exact Rp|]. intros s Hs. cbn [snd inv_step]. now apply by_max_pos.
      - destruct (by_max_attained (sources ts) _ (src_ne ts NE) (rmax_src_pos ts NE _ P1)) as (s & Hs & E).
        exists s. etransitivity; [exact (reports_trust ts r _ s Rp Hs)|]. cbn [fst inv_step]. now rewrite E.
      - destruct (by_max_attained (claims ts) _ (cl_ne ts NE) (rmax_cl_pos ts NE _ P2)) as (s & Hs & E).
        exists s. etransitivity; [exact (reports_belief ts r _ s Rp Hs)|]. cbn [snd inv_step]. now rewrite E.
    Qed.
    (** ** C37 PooledInvestment *)
    Theorem C37_pooled_recurrence clock fuel g p it lg r o' : run clock fuel (AObj (PooledInvestment (Fin g)) p it lg) d = (Ok r, o') ->
      exists x0 k, start ts (PooledInvestment (Fin g)) p = Some x0 /\ r_iterations r = Some k /\ reports_real ts r (rounds (pooled_step ts g) x0 k) /\
        all_pos ts (rounds (pooled_step ts g) x0 k) /\ (forall n st, it = IFixed n st -> k = Z.to_nat n).
    Proof.
      intros H. destruct (run_has_start clock fuel (PooledInvestment (Fin g)) p it lg r o' I H) as (NE & x0 & E0).
      assert (A1 : PooledInvestment (Fin g) <> UnboundedSums) by discriminate.
      assert (A2 : init (PooledInvestment (Fin g)) p d = Some (denote ts x0)) by now apply init_start.
      assert (A3 : all_pos ts x0) by (apply (start_all_pos (PooledInvestment (Fin g)) p); [eauto|exact E0]).
      assert (A4 : forall x, ts <> [] -> all_pos ts x -> (exists u v, round (PooledInvestment (Fin g)) d (denote ts x) = UNext u v (denote ts (pooled_step ts g x))) /\ all_pos ts (pooled_step ts g x)).
      { intros x _ Ix. destruct (pooled_round ts (real_imp f) d R0 NE g x Ix) as [E P]. split; [eauto|exact P]. }
      destruct (run_refine clock fuel (PooledInvestment (Fin g)) p it lg r o' x0 (pooled_step ts g) (all_pos ts) A1 A2 A3 A4 H) as (_ & k & Ek & Rk & Ik).
      exists x0, k. repeat (split; [assumption|]). intros n st ->.
      pose proof (run_fixed_full clock fuel (PooledInvestment (Fin g)) p n st lg r o' x0 (pooled_step ts g) (all_pos ts) A1 A2 A3 A4 H). congruence.
    Qed.
    Theorem C37_range clock fuel g p it lg r o' k : run clock fuel (AObj (PooledInvestment (Fin g)) p it lg) d = (Ok r, o') -> r_iterations r = Some k -> k <> 0%nat ->
      trusts_in r (fun q => 0 < q <= 1) /\ beliefs_in r (fun q => 0 < q <= 1) /\
      (exists s, trust_of r s = Some (Fin 1)) /\ (exists c, belief_of r c = Some (Fin 1)).
    Proof.
      intros H Hk Hk0. destruct (run_has_start clock fuel (PooledInvestment (Fin g)) p it lg r o' I H) as (NE & _).
      destruct (C37_pooled_recurrence _ _ _ _ _ _ _ _ H) as (x0 & k' & E0 & Ek & Rp & _). rewrite Hk in Ek. injection Ek as <-.
      destruct k as [|k]; [congruence|].
      assert (Px : all_pos ts (rounds (pooled_step ts g) x0 k)) by (apply pooled_rounds_pos; [exact NE|]; apply (start_all_pos (PooledInvestment (Fin g)) p); [eauto|exact E0]).
      set (x := rounds (pooled_step ts g) x0 k) in *. cbn [rounds] in Rp. fold x in Rp.
      assert (P1 : forall s, In s (sources ts) -> 0 < returned ts x s) by (intros; now apply returned_pos).
      set (h := fun c => Rpower (invested ts (returned ts x) c) g).
      set (nb := fun c => invested ts (returned ts x) c * (h c / rsum h (rivals ts c))).
      assert (P2 : forall c, In c (claims ts) -> 0 < nb c).
      { intros c Hc. apply Rmult_lt_0_compat; [now apply invested_pos|]. apply Rdiv_lt_0_compat; [apply Rpower_pos|].
        apply (rsum_pos _ _ c); [intros; left; apply Rpower_pos|now apply rivals_self|apply Rpower_pos]. }
      split; [|split; [|split]].
      - eapply reports_trusts_in; [exact Rp|]. intros s Hs. cbn [fst pooled_step]. now apply by_max_pos.
      - eapply reports_beliefs_in; [exact Rp|]. intros s Hs. cbn [snd pooled_step]. now apply (by_max_pos (claims ts) nb).
      - destruct (by_max_attained (sources ts) _ (src_ne ts NE) (rmax_src_pos ts NE _ P1)) as (s & Hs & E).
        exists s. etransitivity; [exact (reports_trust ts r _ s Rp Hs)|]. cbn [fst pooled_step]. now rewrite E.
      - destruct (by_max_attained (claims ts) nb (cl_ne ts NE) (rmax_cl_pos ts NE _ P2)) as (s & Hs & E).
        exists s. etransitivity; [exact (reports_belief ts r _ s Rp Hs)|]. change (snd (pooled_step ts g x) s) with (by_max (claims ts) nb s). now rewrite E.
    Qed.

    (** ** C38 TruthFinder *)
    Theorem C38_truthfinder_recurrence clock fuel rho gamma t0 p it lg r o' : t0 < 1 ->
      run clock fuel (AObj (TruthFinder (Fin rho) (Fin gamma) (Fin t0)) p it lg) d = (Ok r, o') ->
      exists k, r_iterations r = Some k /\ reports_real ts r (rounds (tf_step ts f rho gamma) ((fun _ => t0), (fun _ => 0)) k) /\
        (forall n st, it = IFixed n st -> k = Z.to_nat n).
    Proof.
      intros Ht H. set (a := TruthFinder (Fin rho) (Fin gamma) (Fin t0)) in *. set (x0 := ((fun _ => t0), (fun _ => 0)) : rscores).
      assert (Hf : is_fin (Fin t0)) by (eexists; reflexivity).
      destruct (run_has_start clock fuel a p it lg r o' Hf H) as (NE & _).
      assert (A1 : a <> UnboundedSums) by discriminate.
      assert (A2 : init a p d = Some (denote ts x0)) by (apply init_start; [exact NE|exact Hf|reflexivity]).
      assert (A3 : tf_inv ts x0) by (intros s _; exact Ht).
      assert (A4 : forall x, ts <> [] -> tf_inv ts x -> (exists u v, round a d (denote ts x) = UNext u v (denote ts (tf_step ts f rho gamma x))) /\ tf_inv ts (tf_step ts f rho gamma x)).
      { intros x _ Ix. split.
        - unfold a. rewrite (tf_round ts f d R0 rho gamma (Fin t0) x Ix). eauto.
        - intros s Hs. now apply (tf_step_range ts f rho gamma x). }
      destruct (run_refine clock fuel a p it lg r o' x0 (tf_step ts f rho gamma) (tf_inv ts) A1 A2 A3 A4 H) as (_ & k & Ek & Rk & Ik).
      exists k. repeat (split; [assumption|]). intros n st ->.
      pose proof (run_fixed_full clock fuel a p n st lg r o' x0 (tf_step ts f rho gamma) (tf_inv ts) A1 A2 A3 A4 H). congruence.
    Qed.
    Theorem C38_range clock fuel rho gamma t0 p it lg r o' k : t0 < 1 ->
      run clock fuel (AObj (TruthFinder (Fin rho) (Fin gamma) (Fin t0)) p it lg) d = (Ok r, o') -> r_iterations r = Some k -> k <> 0%nat ->
      trusts_in r (fun q => 0 < q < 1) /\ beliefs_in r (fun q => 0 < q < 1) /\
      (* a source's trust is the mean belief of its claims *)
      exists x, reports_real ts r x /\ forall s, In s (sources ts) -> fst x s = rsum (snd x) (claims_of ts s) / INR (length (claims_of ts s)).
    Proof.
      intros Ht H Hk Hk0. destruct (C38_truthfinder_recurrence _ _ _ _ _ _ _ _ _ _ Ht H) as (k' & Ek & Rp & _). rewrite Hk in Ek. injection Ek as <-.
      destruct k as [|k]; [congruence|]. set (x := rounds (tf_step ts f rho gamma) ((fun _ => t0), (fun _ => 0)) k) in *. cbn [rounds] in Rp. fold x in Rp.
      destruct (tf_step_range ts f rho gamma x) as [G1 G2]. split; [|split].
      - eapply reports_trusts_in; [exact Rp|exact G2].
      - eapply reports_beliefs_in; [exact Rp|]. intros; apply G1.
      - eexists. split; [exact Rp|]. reflexivity.
    Qed.
    (** without implications, with non-negative dampening and initial trust: claims are believed at least 1/2 *)
    Theorem C38_at_least_half clock fuel rho gamma t0 p it lg r o' k : f = None -> 0 <= gamma -> 0 <= t0 < 1 ->
      run clock fuel (AObj (TruthFinder (Fin rho) (Fin gamma) (Fin t0)) p it lg) d = (Ok r, o') -> r_iterations r = Some k -> k <> 0%nat ->
      trusts_in r (fun q => 1/2 <= q < 1) /\ beliefs_in r (fun q => 1/2 <= q < 1).
    Proof.
      intros Hf Hg Ht H Hk Hk0. destruct (C38_truthfinder_recurrence _ _ _ _ _ _ _ _ _ _ (proj2 Ht) H) as (k' & Ek & Rp & _). rewrite Hk in Ek. injection Ek as <-.
      assert (NS : forall x, tf_inv ts x -> (forall s, In s (sources ts) -> 0 <= fst x s) ->
        (forall c, 1/2 <= snd (tf_step ts f rho gamma x) c) /\ (forall s, In s (sources ts) -> 1/2 <= fst (tf_step ts f rho gamma x) s)).
      { intros x Ix Px. assert (G : forall c, 1/2 <= snd (tf_step ts f rho gamma x) c).
        { intros c. cbn [snd tf_step]. set (conf := _ + rho * _). assert (C : 0 <= conf).
          { unfold conf. rewrite (rsum_ext _ (fun _ => 0)), rsum_zero, Rmult_0_r, Rplus_0_r.
            - apply rsum_nonneg. intros s Hs. apply supporters_sources in Hs. specialize (Ix s Hs). specialize (Px s Hs).
              assert (ln (1 - fst x s) <= 0); [|lra]. destruct Px as [Px|Px]; [|rewrite <- Px, Rminus_0_r, ln_1; lra].
              rewrite <- ln_1. left. apply ln_increasing; lra.
            - intros c' _. unfold implication. rewrite Hf. lra. }
          assert (E1 : exp (- (gamma * conf)) <= 1).
          { rewrite <- exp_0. assert (0 <= gamma * conf) by now apply Rmult_le_pos.
            destruct (Req_dec (gamma * conf) 0) as [->|]; [rewrite Ropp_0; lra|]. left. apply exp_increasing. lra. }
          pose proof (exp_pos (- (gamma * conf))). apply (Rmult_le_reg_r (1 + exp (- (gamma * conf)))); [lra|].
          unfold Rdiv at 2. rewrite Rmult_assoc, Rinv_l by lra. lra. }
        split; [exact G|]. intros s Hs. cbn [fst tf_step]. pose proof (n_claims_pos ts s Hs) as Pn.
        apply (Rmult_le_reg_r (n_claims ts s)); [exact Pn|]. unfold Rdiv at 2. rewrite Rmult_assoc, Rinv_l, Rmult_1_r by lra.
        unfold n_claims, total_belief. rewrite Rmult_comm, <- rsum_const. apply rsum_le. intros c _. apply G. }
      assert (Iv : forall k, tf_inv ts (rounds (tf_step ts f rho gamma) ((fun _ => t0), (fun _ => 0)) k) /\
                 (forall s, In s (sources ts) -> 0 <= fst (rounds (tf_step ts f rho gamma) ((fun _ => t0), (fun _ => 0)) k) s)).
      { clear k Hk Hk0 Rp. induction k as [|k [IH1 IH2]]; [split; [intros s _; cbn; lra|intros; cbn; lra]|]. cbn [rounds].
        destruct (tf_step_range ts f rho gamma (rounds (tf_step ts f rho gamma) ((fun _ => t0), (fun _ => 0)) k)) as [_ G2].
        split; intros s Hs; destruct (G2 s Hs); lra. }
      destruct k as [|k]; [congruence|]. cbn [rounds] in Rp. destruct (Iv k) as [I1 I2]. destruct (NS _ I1 I2) as [N1 N2].
      destruct (tf_step_range ts f rho gamma (rounds (tf_step ts f rho gamma) ((fun _ => t0), (fun _ => 0)) k)) as [G1 G2]. split.
      - eapply reports_trusts_in; [exact Rp|]. intros s Hs. split; [now apply N2|now apply G2].
      - eapply reports_beliefs_in; [exact Rp|]. intros s Hs. split; [apply N1|apply G1].
    Qed.
    (** initial trust 1: the run ends before the first round, whatever the iterator *)
    Theorem C38_full_initial_trust clock fuel rho gamma p it lg r o' :
      run clock fuel (AObj (TruthFinder rho gamma (Fin 1)) p it lg) d = (Ok r, o') ->
      r_iterations r = Some 0%nat /\ reports_real ts r ((fun _ => 1), (fun _ => 0)).
    Proof.
      intros H. set (a := TruthFinder rho gamma (Fin 1)) in *. assert (Hf : is_fin (Fin 1)) by (eexists; reflexivity).
      destruct (run_has_start clock fuel a p it lg r o' Hf H) as (NE & _).
      apply (run_cases b (real_imp f) ts d Hb) in H. destruct H as (_ & x0 & k & it' & E0 & El & x & Ef & ->).
      pose proof (eq_trans (eq_sym (init_start a p ((fun _ => 1), (fun _ => 0)) NE Hf eq_refl)) E0) as E1. injection E1 as <-.
      assert (S0 : stops a d (denote ts ((fun _ => 1), (fun _ => 0))) 0 = true).
      { unfold stops. cbn [scores round a]. unfold denote, tf_upd, get_log_trust. cbn [fst snd]. unfold tvec.
        pose proof (src_ne ts NE). destruct (sources ts) as [|s l]; [congruence|]. cbn. rewrite reqb_refl. reflexivity. }
      assert (k = 0%nat).
      { destruct fuel as [|fu]; [discriminate|]. cbn [it_loop] in El. destruct (finished (reset it)) as [[|]|]; [injection El as <- _; reflexivity| |discriminate].
        rewrite S0 in El. injection El as <- _. reflexivity. }
      subst k. cbn [scores final a] in Ef. injection Ef as <-. split; [reflexivity|]. apply reports_denote; reflexivity.
    Qed.

    (** ** C39 CRH *)
    Theorem C39_crh_recurrence clock fuel eps p it lg r o' : 0 < eps -> run clock fuel (AObj (CRH (Fin eps)) p it lg) d = (Ok r, o') ->
      exists k, r_iterations r = Some k /\
        reports_real ts r (rounds (crh_step ts eps) ((fun _ => 0), (fun c => n_supporters ts c / INR (length (sources ts)))) k).
    Proof.
      intros He H. destruct (run_has_start clock fuel (CRH (Fin eps)) p it lg r o' I H) as (NE & _).
      destruct (run_refine clock fuel (CRH (Fin eps)) p it lg r o' ((fun _ => 0), (fun c => n_supporters ts c / INR (length (sources ts)))) (crh_step ts eps) (fun _ => True)) as (_ & k & Ek & Rk & _).
      - discriminate.
      - now apply init_start.
      - exact I.
      - intros x _ _. split; [|exact I]. rewrite (crh_round ts (real_imp f) d R0 NE eps x He). eauto.
      - exact H.
      - eauto.
    Qed.
    Lemma supporters_disjoint (t : S -> R) x : (forall s, In s (sources ts) -> 0 <= t s) ->
      rsum (total_trust ts t) (filter (fun c => beq (fst c) x) (claims ts)) = rsum t (filter (fun s => match first_claim ts s x with Some _ => true | None => false end) (sources ts)).
    Proof.
      intros _. unfold total_trust, supporters.
      rewrite (rsum_ext _ (fun c => rsum (fun s => if says ts s c then t s else 0) (sources ts))) by (intros; apply rsum_filter).
      rewrite rsum_swap, rsum_filter. apply rsum_ext. intros s _. rewrite rsum_filter.
      destruct (first_claim ts s x) as [w|] eqn:E.
      - assert (Hc : In (x, w) (claims ts)) by (apply claims_In; exists s; now apply says_true).
        assert (G : forall l, NoDup l -> rsum (fun c => if beq (fst c) x then if says ts s c then t s else 0 else 0) l = if mem (x, w) l then t s else 0).
        { induction l as [|[y v] l IH]; intros ND; [reflexivity|]. inversion ND as [|? ? Hn ND']; subst. cbn [rsum fst]. rewrite (IH ND').
          unfold mem. cbn [existsb]. destruct (beq_spec y x) as [->|N].
          - unfold says. cbn [fst snd]. rewrite E. destruct (beq_spec (Some w) (Some v)) as [Q|Q].
            + injection Q as <-. rewrite beq_refl. cbn [orb]. assert (Z : existsb (beq (x, w)) l = false) by now apply mem_false. rewrite Z. lra.
            + rewrite (beq_neq (x, w) (x, v)) by congruence. cbn [orb]. lra.
          - rewrite (beq_neq (x, w) (y, v)) by congruence. cbn [orb]. lra. }
        rewrite G by apply claims_NoDup. apply mem_In in Hc. now rewrite Hc.
      - rewrite (rsum_ext _ (fun _ => 0)), rsum_zero; [reflexivity|]. intros [y v] _. cbn [fst]. destruct (beq_spec y x) as [->|N]; [|reflexivity].
        unfold says. cbn [fst snd]. rewrite E. reflexivity.
    Qed.
    (** total belief a result gives to the values of one variable *)
    Theorem C39_range clock fuel eps p it lg r o' k : 0 < eps -> run clock fuel (AObj (CRH (Fin eps)) p it lg) d = (Ok r, o') ->
      r_iterations r = Some k -> k <> 0%nat ->
      trusts_in r (fun q => eps <= q) /\ beliefs_in r (fun q => 0 < q <= 1) /\
      exists x, reports_real ts r x /\ forall v,
        rsum (fun w => snd x (v, w)) (values_of ts v) <= 1 /\
        ((forall s, In s (sources ts) -> first_claim ts s v <> None) -> rsum (fun w => snd x (v, w)) (values_of ts v) = 1).
    Proof.
      intros He H Hk Hk0. destruct (run_has_start clock fuel (CRH (Fin eps)) p it lg r o' I H) as (NE & _).
      destruct (C39_crh_recurrence _ _ _ _ _ _ _ _ He H) as (k' & Ek & Rp). rewrite Hk in Ek. injection Ek as <-.
      destruct k as [|k]; [congruence|]. cbn [rounds] in Rp. match type of Rp with reports_real ts r (crh_step ts eps ?y) => set (x := y) in * end.
      set (t := fst (crh_step ts eps x)).
      assert (T1 : forall s, In s (sources ts) -> eps <= t s) by (intros; now apply crh_trust_ge).
      pose proof (crh_total_pos ts NE eps x He) as TP. fold t in TP.
      assert (Sx : forall v, rsum (fun w => snd (crh_step ts eps x) (v, w)) (values_of ts v) =
                 rsum t (filter (fun s => match first_claim ts s v with Some _ => true | None => false end) (sources ts)) / rsum t (sources ts)).
      { intros v. rewrite <- (supporters_disjoint t v) by (intros s Hs; specialize (T1 s Hs); lra).
        rewrite <- rsum_div. unfold values_of. rewrite rsum_map. apply rsum_ext. intros [y w] Hc. apply filter_In in Hc. destruct Hc as [_ Hc].
        apply beq_eq in Hc. cbn in Hc. subst y. reflexivity. }
      assert (Le : forall p, rsum t (filter p (sources ts)) <= rsum t (sources ts)).
      { intros q. rewrite rsum_filter. apply rsum_le. intros s Hs. specialize (T1 s Hs). destruct (q s); lra. }
      assert (Dv : forall z, z <= rsum t (sources ts) -> z / rsum t (sources ts) <= 1).
      { intros z Hz. apply (Rmult_le_reg_r (rsum t (sources ts))); [exact TP|]. unfold Rdiv. rewrite Rmult_assoc, Rinv_l; lra. }
      split; [|split].
      - eapply reports_trusts_in; [exact Rp|]. exact T1.
      - eapply reports_beliefs_in; [exact Rp|]. intros c Hc. change (0 < total_trust ts t c / rsum t (sources ts) <= 1). split.
        + apply Rdiv_lt_0_compat; [|exact TP]. apply total_trust_pos; [|exact Hc]. intros s Hs. specialize (T1 s Hs). lra.
        + apply Dv. apply Le.
      - eexists. split; [exact Rp|]. intros v. rewrite Sx. split; [apply Dv, Le|]. intros All.
        assert (Ef : filter (fun s => match first_claim ts s v with Some _ => true | None => false end) (sources ts) = sources ts).
        { clear -All. induction (sources ts) as [|s l IH]; [reflexivity|]. cbn. specialize (All s (or_introl eq_refl)) as A. destruct (first_claim ts s v); [|congruence].
          f_equal. apply IH. intros; apply All; now right. }
        rewrite Ef. field. lra.
    Qed.
  End OneData.

  (** C32, label level: all priors are positive; VOTED and UNIFORM add up to 1 over the values of each variable. *)
  Theorem C32_priors (ts : list (S * V * W)) p (bel : claim -> R) : prior_spec ts p = Some bel ->
    (forall c, In c (claims ts) -> 0 < bel c) /\
    (p = VOTED \/ p = UNIFORM -> forall v, In v (variables ts) -> rsum (fun w => bel (v, w)) (values_of ts v) = 1).
  Proof.
    intros E. split; [exact (prior_pos ts p bel E)|]. intros Hp v Hv.
    destruct (variable_claims ts v Hv) as (w0 & Hw0).
    assert (Ef : forall w, rivals ts (v, w) = filter (fun c => beq (fst c) v) (claims ts)).
    { intros w. unfold rivals. cbn [fst]. apply filter_ext. intros c. destruct (beq_spec v (fst c)) as [->|N]; [now rewrite beq_refl|]. symmetry. apply beq_neq. congruence. }
    assert (Em : forall g : claim -> R, rsum (fun w => g (v, w)) (values_of ts v) = rsum g (rivals ts (v, w0))).
    { intros g. rewrite Ef. unfold values_of. rewrite rsum_map. apply rsum_ext. intros [y w] Hc. apply filter_In in Hc. destruct Hc as [_ Hc].
      apply beq_eq in Hc. cbn in Hc. now subst. }
    assert (P : 0 < rsum (n_supporters ts) (rivals ts (v, w0))) by (apply rivals_count_pos; exact Hw0).
    assert (P' : 0 < INR (length (rivals ts (v, w0)))) by (apply (len_pos _ (v, w0)), rivals_self; exact Hw0).
    destruct Hp as [-> | ->]; cbn in E; injection E as <-.
    - rewrite (rsum_ext _ (fun w => n_supporters ts (v, w) / rsum (n_supporters ts) (rivals ts (v, w0)))) by (intros; now rewrite !Ef).
      rewrite rsum_div, (Em (n_supporters ts)). field. lra.
    - rewrite (rsum_ext _ (fun w => 1 / INR (length (rivals ts (v, w0))))) by (intros; now rewrite !Ef). rewrite rsum_const.
      assert (El : length (values_of ts v) = length (rivals ts (v, w0))) by (rewrite Ef; unfold values_of; now rewrite map_length).
      rewrite El. field. lra.
  Qed.
  (** C36: the trust returned to the sources adds up to the total belief. *)
  Theorem C36_conservation (ts : list (S * V * W)) (x : rscores) : ts <> [] -> all_pos ts x ->
    rsum (returned ts x) (sources ts) = rsum (snd x) (claims ts).
  Proof.
    intros NE P. unfold returned, claims_of.
    rewrite (rsum_ext _ (fun s => rsum (fun c => if says ts s c then snd x c * (invests ts (fst x) s / invested ts (fst x) c) else 0) (claims ts))) by (intros; apply rsum_filter).
    rewrite rsum_swap. apply rsum_ext. intros c Hc.
    pose proof (invested_pos ts (fst x) c (proj1 P) Hc) as Pi.
    rewrite (rsum_ext _ (fun s => snd x c / invested ts (fst x) c * (if says ts s c then invests ts (fst x) s else 0))).
    - rewrite rsum_scal. rewrite <- (rsum_filter (invests ts (fst x)) (fun s => says ts s c)). fold (supporters ts c).
      change (rsum (invests ts (fst x)) (supporters ts c)) with (invested ts (fst x) c). field. lra.
    - intros s _. destruct (says ts s c); [field; lra|lra].
  Qed.
End PropsAlg.

(** ** Non-vacuity *)
Module AlgExamples.
  Import ListNotations.
  (* s1 and s2 say x = 1, s3 says x = 2, s3 also says y = 1 *)
  Definition vs : list (nat * nat * nat) := [(1, 0, 1); (2, 0, 1); (3, 0, 2)]%nat.
  Definition vs2 : list (nat * nat * nat) := [(1, 0, 1); (2, 0, 1); (3, 0, 2); (3, 7, 1)]%nat.
  Lemma strict_builds (l : list (nat * nat * nat)) : NoDup (sv_pairs l) -> exists d : dataset nat nat nat XR, build false (real_imp None) l = Ok d.
  Proof.
    intros ND. destruct (build_strict (F:=XR) None l) as [(_ & _ & d & E & _)|[(_ & N & _)|(s & x & H & _)]].
    - exists d. exact E.
    - exfalso. apply N. intros c c' q _ _ H. unfold imp_val in H. destruct (_ && _)%bool; discriminate.
    - exfalso. exact (first_repeat_not_NoDup _ _ _ H ND).
  Qed.
  Lemma vs2_builds : exists d : dataset nat nat nat XR, build false (real_imp None) vs2 = Ok d.
  Proof. apply strict_builds. unfold vs2, sv_pairs; cbn. repeat constructor; cbn; intuition congruence. Qed.
  Lemma vs_builds : exists d : dataset nat nat nat XR, build false (real_imp None) vs = Ok d.
  Proof. apply strict_builds. unfold vs, sv_pairs; cbn. repeat constructor; cbn; intuition congruence. Qed.

  (* the hypotheses "run ... = (Ok r, o')", "r_iterations r = Some k", "k <> 0" are met by every algorithm with a fixed
     number of rounds, and the extra hypotheses of C35 by vs2 and (negated) by vs *)
  Example runs : exists d : dataset nat nat nat XR, build false (real_imp None) vs2 = Ok d /\
    forall a, a <> UnboundedSums -> exists r o', run (fun _ => Fin 0) 8 (AObj a FIXED (IFixed 7 3) None) d = (Ok r, o').
  Proof.
    destruct vs2_builds as [d E]. exists d. split; [exact E|]. intros a Ha.
    assert (NE : vs2 <> []) by discriminate. assert (NP : FIXED <> BadPrior) by discriminate. assert (L : (Z.to_nat 7 < 8)%nat) by (cbn; lia).
    destruct (C28_fixed_returns false _ vs2 d E (fun _ => Fin 0) 8 a FIXED 7 3 None NE Ha NP L) as [r Hr].
    exists r. exists (snd (run (fun _ => Fin 0) 8 (AObj a FIXED (IFixed 7 3) None) d)). rewrite <- Hr. now destruct (run _ _ _ _).
  Qed.
  Example someone_two : someone_claims_two vs2 /\ ~ someone_claims_two vs.
  Proof.
    split.
    - exists 3%nat. cbn. split; [auto|lia].
    - intros (s & Hs & L). cbn in Hs. destruct Hs as [<-|[<-|[<-|[]]]]; cbn in L; lia.
  Qed.
  (* the number of rounds is positive *)
  Example sums_rounds : exists d : dataset nat nat nat XR, build false (real_imp None) vs2 = Ok d /\
    exists r o', run (fun _ => Fin 0) 8 (AObj Sums FIXED (IFixed 7 3) None) d = (Ok r, o') /\ r_iterations r = Some 7%nat.
  Proof.
    destruct runs as (d & E & H). exists d. split; [exact E|]. destruct (H Sums) as (r & o' & Hr); [discriminate|]. exists r, o'. split; [exact Hr|].
    destruct (run_has_start false None vs2 d E _ _ Sums _ _ _ _ _ I Hr) as (NE & x0 & E0).
    apply (run_fixed_full false None vs2 d E (fun _ => Fin 0) 8 Sums FIXED 7 3 None r o' x0 (sums_step vs2) (belief_pos vs2)); [discriminate| | | |exact Hr].
    - now apply (init_start false None vs2 d E).
    - intros c Hc. exact (start_belief_pos vs2 Sums FIXED x0 (or_introl eq_refl) E0 c Hc).
    - intros x _ Ix. destruct (sums_round vs2 _ d (build_rep _ _ _ _ E) NE x Ix) as [E1 P]. split; [eauto|]. exact (proj2 P).
  Qed.
End AlgExamples.

(** C39.  CRH's trust scores are not bounded by 1: on "s1 and s2 say 1, s3 says 2" the first round gives s1 a trust above 1
    for every positive eps. *)
Theorem C39_trust_may_exceed_one : exists (ts : list (nat * nat * nat)) (d : dataset nat nat nat XR),
  build false None ts = Ok d /\
  forall eps clock, 0 < eps -> exists r q, fst (run clock 2 (AObj (CRH (Fin eps)) FIXED (IFixed 1 0) None) d) = Ok r /\
    trust_of r 1%nat = Some (Fin q) /\ 1 < q.
Proof.
  destruct AlgExamples.vs_builds as [d E]. exists AlgExamples.vs, d. split; [exact E|]. intros eps clock He.
  destruct (C28_fixed_returns false None AlgExamples.vs d E clock 2 (CRH (Fin eps)) FIXED 1 0 None) as [r Hr]; try discriminate; [cbn; lia|].
  destruct (run clock 2 (AObj (CRH (Fin eps)) FIXED (IFixed 1 0) None) d) as [q o'] eqn:Er. cbn in Hr. subst q.
  destruct (C39_crh_recurrence false None AlgExamples.vs d E clock 2 eps FIXED (IFixed 1 0) None r o' He Er) as (k & Hk & Rp).
  assert (k = 1%nat).
  { assert (Ek : r_iterations r = Some (Z.to_nat 1)); [|rewrite Hk in Ek; now injection Ek].
    apply (run_fixed_full false None AlgExamples.vs d E clock 2 (CRH (Fin eps)) FIXED 1 0 None r o'
      ((fun _ => 0), (fun c => n_supporters AlgExamples.vs c / INR (length (sources AlgExamples.vs)))) (crh_step AlgExamples.vs eps) (fun _ => True));
      [discriminate| |exact I| |exact Er].
    - apply (init_start false None AlgExamples.vs d E); [discriminate|exact I|reflexivity].
    - intros x NE _. split; [|exact I]. rewrite (crh_round AlgExamples.vs _ d (build_rep _ _ _ _ E) NE eps x He). eauto. }
  subst k. exists r. eexists. split; [reflexivity|]. split; [exact (reports_trust AlgExamples.vs r _ 1%nat Rp (or_introl eq_refl))|].
  cbn [rounds]. unfold crh_step. cbn [fst snd].
  assert (L1 : crh_loss_spec AlgExamples.vs (fun c => n_supporters AlgExamples.vs c / INR (length (sources AlgExamples.vs))) 1%nat = 2/9) by (cbn; lra).
  assert (L2 : crh_loss_spec AlgExamples.vs (fun c => n_supporters AlgExamples.vs c / INR (length (sources AlgExamples.vs))) 2%nat = 2/9) by (cbn; lra).
  assert (L3 : crh_loss_spec AlgExamples.vs (fun c => n_supporters AlgExamples.vs c / INR (length (sources AlgExamples.vs))) 3%nat = 8/9) by (cbn; lra).
  assert (Tot : rsum (fun s => eps + crh_loss_spec AlgExamples.vs (fun c => n_supporters AlgExamples.vs c / INR (length (sources AlgExamples.vs))) s) (sources AlgExamples.vs)
     = eps + 2/9 + (eps + 2/9 + (eps + 8/9 + 0))).
  { match goal with |- rsum ?g _ = _ => change (rsum g [1; 2; 3]%nat = eps + 2/9 + (eps + 2/9 + (eps + 8/9 + 0))) end. cbn [rsum]. now rewrite L1, L2, L3. }
  rewrite Tot, L1.
  set (z := (eps + 2/9) / (eps + 2/9 + (eps + 2/9 + (eps + 8/9 + 0)))).
  assert (Hz : 0 < z < / exp 1).
  { unfold z. split; [apply Rdiv_lt_0_compat; lra|].
    apply Rlt_le_trans with (/ 3); [|apply Rinv_le_contravar; [apply exp_pos|apply exp_le_3]].
    apply (Rmult_lt_reg_r (eps + 2/9 + (eps + 2/9 + (eps + 8/9 + 0)))); [lra|]. unfold Rdiv. rewrite Rmult_assoc, Rinv_l; lra. }
  assert (ln z < -1); [|lra]. rewrite <- (ln_exp (-1)). replace (-1) with (- (1)) by lra. rewrite exp_Ropp. now apply ln_increasing.
Qed.
