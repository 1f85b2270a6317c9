(** C110: the doubles Investment and PooledInvestment report are the exact scores up to an explicit relative error. *)
From Coq Require Import Reals Lra Psatz.
From Flocq Require Import Core IEEE754.BinarySingleNaN.
From Verif Require Import Base Num Sparse Spec SpecAlg Dataset Ranking Results DatasetProofs DatasetRep Iterators Algorithms AlgTF Driver Rounds
  AlgRep AlgRounds PropsData PropsIter PropsRun PropsAlg Float PropsFloat PropsVote64 PropsTF64 PropsResult Accuracy PropsAccuracy PropsAvlog64 PropsCrh64 PropsInvest64 Close.
Local Open Scope R_scope.

Lemma sublist_len {A} (q : A -> bool) l : (length (filter q l) <= length l)%nat.
Proof. induction l as [|a l IH]; cbn; [lia|]. destruct (q a); cbn; lia. Qed.

Section Step.
  Context {S V W : Type} {ES : Eqb S} {EV : Eqb V} {EW : Eqb W}.
  Variable L : libm.
  Notation F := (B64 L).
  Variable gm : F.
  Notation gR := (B2R64 gm).
  Hypothesis Hgm : 0 <= gR <= 2.
  Hypothesis Pow : pow_accurate L gm.
  Notation data := (dataset S V W F).
  Notation claim := (V * W)%type.
  Variables (b : bool) (f : option (V -> W -> W -> option F)) (ts : list (S * V * W)) (d : data).
  Hypothesis Hb : build (F:=F) b f ts = Ok d.
  Notation NS := (length (sources ts)).
  Notation NC := (length (claims ts)).
  Hypothesis Small_s : (Z.of_nat NS <= 2 ^ 20)%Z.
  Hypothesis Small_c : (Z.of_nat NC <= 2 ^ 20)%Z.
  Let R0 : ds_rep (F:=F) ts f d := build_rep _ _ _ _ Hb.
  Notation one := (fun _ => ofZ64 1).

  Lemma few (n : nat) : (1 <= n)%nat -> (Z.of_nat n <= 2 ^ 20)%Z -> bpow radix2 0 <= INR n <= bpow radix2 20.
  Proof. intros H1 H2. split; [change (bpow radix2 0) with (INR 1); now apply le_INR|]. rewrite INR_IZR_INZ. apply (IZR_le _ (2 ^ 20)). exact H2. Qed.
  Lemma dbl_exact n v : (1 <= n)%nat -> (Z.of_nat n <= 2 ^ 20)%Z -> isf v (INR n) -> dbl 0 20 0 v (INR n).
  Proof. intros H1 H2 H. exists (INR n). split; [exact H|]. pose proof (few n H1 H2) as Q. split; [exact Q|]. apply close_refl. change (bpow radix2 0) with 1 in Q. lra. Qed.
  Lemma few_claims s : (Z.of_nat (length (claims_of ts s)) <= 2 ^ 20)%Z.
  Proof. pose proof (sublist_len (says ts s) (claims ts)). fold (claims_of ts s) in *. lia. Qed.
  Lemma few_supp c : (length (supporters ts c) <= NS)%nat. Proof. apply sublist_len. Qed.
  Lemma few_riv c : (length (rivals ts c) <= NC)%nat. Proof. apply sublist_len. Qed.
  Lemma some_claim s : In s (sources ts) -> claims_of ts s <> [].
  Proof. intros Hs E. destruct (claims_of_ne ts s Hs) as (c & Hc). rewrite E in Hc. destruct Hc. Qed.
  Lemma some_supp c : In c (claims ts) -> supporters ts c <> [].
  Proof. intros Hs E. destruct (supporters_ne ts c Hs) as (s & Hc). rewrite E in Hc. destruct Hc. Qed.
  Lemma some_riv c : In c (claims ts) -> rivals ts c <> [].
  Proof. intros Hs E. pose proof (rivals_self ts c Hs) as Hc. rewrite E in Hc. destruct Hc. Qed.
  Lemma nonempty {A} (l : list A) : l <> [] -> (1 <= length l)%nat. Proof. destruct l; [congruence|cbn; lia]. Qed.

  Lemma cnt_dbl s : In s (sources ts) -> dbl 0 20 0 (tb64 ts one s) (n_claims ts s).
  Proof.
    intros Hs. unfold n_claims. pose proof (few_claims s). apply dbl_exact; [apply nonempty, some_claim, Hs|assumption|].
    apply (count_exact (claims_of ts s) 0); [cbn [Nat.add]; lia|exact zero64].
  Qed.
  Lemma supp_dbl c : In c (claims ts) -> dbl 0 20 0 (tt64 ts one c) (n_supporters ts c).
  Proof.
    intros Hc. unfold n_supporters. pose proof (few_supp c). apply dbl_exact; [apply nonempty, some_supp, Hc|lia|].
    apply (count_exact (supporters ts c) 0); [cbn [Nat.add]; lia|exact zero64].
  Qed.
  Lemma tr_dbl lo hi K (h : claim -> b64) x c : (-1022 <= lo)%Z -> (hi <= 900)%Z -> In c (claims ts) -> (forall c', In c' (claims ts) -> dbl lo hi K (h c') (x c')) ->
    dbl lo (hi + 20) (K + INR NC) (tr64 ts h c) (rsum x (rivals ts c)).
  Proof.
    intros L1 L2 Hc H. apply (dbl_wide lo (hi + 20) lo (hi + 20) (K + INR (length (rivals ts c)))); [lia|lia|apply Rplus_le_compat_l, le_INR, few_riv|].
    apply (dbl_sum lo hi K (fun c => Bmult mode_NE (ofZ64 1) (h c))); [exact L1|exact L2|now apply some_riv|pose proof (few_riv c); lia|].
    intros c' Hc'. apply dbl_one_mul, H. unfold rivals in Hc'. apply filter_In in Hc'. tauto.
  Qed.
  Lemma iv_dbl lo hi K t tau s : (-1000 <= lo)%Z -> (hi <= 1000)%Z -> In s (sources ts) -> dbl lo hi K (t s) (tau s) -> dbl (lo - 20) hi (K + 1) (iv64 ts t s) (invests ts tau s).
  Proof.
    intros L1 L2 Hs H. pose proof (dbl_div _ _ _ _ _ _ _ _ _ _ H (cnt_dbl s Hs) ltac:(lia) ltac:(lia)) as Q. unfold iv64, invests. replace (hi - 0)%Z with hi in Q by lia. replace (K + 0 + 1) with (K + 1) in Q by ring. exact Q.
  Qed.
  Lemma ci_dbl lo hi K t tau c : (-1000 <= lo)%Z -> (hi <= 900)%Z -> In c (claims ts) -> (forall s, In s (sources ts) -> dbl lo hi K (t s) (tau s)) ->
    dbl (lo - 20) (hi + 20) (K + 1 + INR NS) (ci64 ts t c) (invested ts tau c).
  Proof.
    intros L1 L2 Hc H. apply (dbl_wide (lo - 20) (hi + 20) (lo - 20) (hi + 20) (K + 1 + INR (length (supporters ts c)))); [lia|lia|apply Rplus_le_compat_l, le_INR, few_supp|].
    unfold ci64, tt64, invested, total_trust. apply (dbl_sum (lo - 20) hi (K + 1) (fun s => Bmult mode_NE (ofZ64 1) (iv64 ts t s))); [lia|lia|now apply some_supp|pose proof (few_supp c); lia|].
    intros s Hs. apply dbl_one_mul. unfold supporters in Hs. apply filter_In in Hs. apply iv_dbl; [lia|lia|tauto|apply H; tauto].
  Qed.

  Section Round.
    Variables (t : S -> b64) (g : claim -> b64) (tau : S -> R) (beta : claim -> R) (Kt Kb : R).
    Hypothesis Ht : forall s, In s (sources ts) -> dbl (-82) 0 Kt (t s) (tau s).
    Hypothesis Hg : forall c, In c (claims ts) -> dbl (-82) 20 Kb (g c) (beta c).
    Definition Kback : R := 2 * Kt + Kb + INR NS + INR NC + 5.
    Definition Kbase : R := Kback + 1 + INR NS.
    Lemma back_dbl s : In s (sources ts) -> dbl (-204) 142 Kback (back64 ts t g s) (returned ts (tau, beta) s).
    Proof.
      intros Hs. pose proof (iv_dbl (-82) 0 Kt t tau s ltac:(lia) ltac:(lia) Hs (Ht s Hs)) as I.
      assert (Sh : forall c, In c (claims_of ts s) -> dbl (-102) 122 (Kt + Kb + INR NS + 3) (share64 ts t g c) (1 / invested ts tau c * beta c)).
      { intros c Hc. unfold claims_of in Hc. apply filter_In in Hc. destruct Hc as (Hc & _). pose proof (ci_dbl (-82) 0 Kt t tau c ltac:(lia) ltac:(lia) Hc Ht) as C.
        pose proof (dbl_one_mul _ _ _ _ _ (dbl_div _ _ _ _ _ _ _ _ _ _ dbl_one C ltac:(lia) ltac:(lia))) as D. pose proof (dbl_mul _ _ _ _ _ _ _ _ _ _ D (Hg c Hc) ltac:(lia) ltac:(lia)) as M.
        refine (dbl_wide _ _ _ _ _ _ _ _ _ _ _ M); [lia|lia|lra]. }
      pose proof (dbl_sum (-102) 122 _ _ _ (claims_of ts s) ltac:(lia) ltac:(lia) (some_claim s Hs) (few_claims s) Sh) as T. pose proof (dbl_mul _ _ _ _ _ _ _ _ _ _ I T ltac:(lia) ltac:(lia)) as M.
      assert (N : INR (length (claims_of ts s)) <= INR NC) by (apply le_INR; apply sublist_len).
      assert (Es : returned ts (tau, beta) s = invests ts tau s * rsum (fun c => 1 / invested ts tau c * beta c) (claims_of ts s)).
      { unfold returned. cbn [fst snd]. rewrite <- rsum_scal. apply rsum_ext. intros c _. unfold Rdiv. ring. }
      rewrite Es. unfold back64. refine (dbl_wide _ _ _ _ _ _ _ _ _ _ _ M); [lia|lia|unfold Kback; lra].
    Qed.
    Lemma base_dbl c : In c (claims ts) -> dbl (-224) 162 Kbase (base64 ts t g c) (invested ts (returned ts (tau, beta)) c).
    Proof. intros Hc. exact (ci_dbl (-204) 142 Kback _ _ c ltac:(lia) ltac:(lia) Hc back_dbl). Qed.
    Lemma ret_dbl c : In c (claims ts) -> dbl (-449) 325 (gR * Kbase + 2) (ret64 L gm ts t g c) (Rpower (invested ts (returned ts (tau, beta)) c) gR).
    Proof. intros Hc. unfold ret64. apply dbl_pow; [exact Hgm|exact Pow|now apply base_dbl]. Qed.
    Lemma pool_dbl c : In c (claims ts) -> dbl (-1018) 936 ((1 + 2 * gR) * Kbase + INR NC + 6) (pool64 L gm ts t g c)
      (invested ts (returned ts (tau, beta)) c * (Rpower (invested ts (returned ts (tau, beta)) c) gR / rsum (fun c => Rpower (invested ts (returned ts (tau, beta)) c) gR) (rivals ts c))).
    Proof.
      intros Hc. pose proof (tr_dbl (-449) 325 _ _ _ c ltac:(lia) ltac:(lia) Hc ret_dbl) as T. pose proof (dbl_div _ _ _ _ _ _ _ _ _ _ (ret_dbl c Hc) T ltac:(lia) ltac:(lia)) as Q.
      pose proof (dbl_mul _ _ _ _ _ _ _ _ _ _ (base_dbl c Hc) Q ltac:(lia) ltac:(lia)) as M. unfold pool64. refine (dbl_wide _ _ _ _ _ _ _ _ _ _ _ M); [lia|lia|]. right. ring.
    Qed.
    Lemma t_within s : In s (sources ts) -> within (bpow radix2 (-100)) 1 (t s).
    Proof. intros Hs. destruct (Ht s Hs) as (r & Hr & B & _). exists r. split; [exact Hr|]. change (bpow radix2 0) with 1 in B. assert (bpow radix2 (-100) <= bpow radix2 (-82)) by (apply bpow_le; lia). lra. Qed.
    Lemma upd_eq : update_trust (F:=F) (map t (sources ts)) (claim_counts d) (sc d) (map g (claims ts)) = Some (map (back64 ts t g) (sources ts)).
    Proof. apply (rd_update L b f ts d Hb ltac:(lia) ltac:(lia) t g t_within). Qed.
  End Round.

  (** a common factor on the trusts cancels, one on the beliefs goes through *)
  Lemma invests_scal lam tau s : invests ts (fun s => lam * tau s) s = lam * invests ts tau s.
  Proof. unfold invests, Rdiv. ring. Qed.
  Lemma invested_scal lam tau c : invested ts (fun s => lam * tau s) c = lam * invested ts tau c.
  Proof. unfold invested, total_trust. rewrite <- rsum_scal. apply rsum_ext. intros s _. apply invests_scal. Qed.
  Lemma returned_scal lam mu (x : rscores (S:=S) (V:=V) (W:=W)) s : lam <> 0 -> returned ts ((fun s => lam * fst x s), (fun c => mu * snd x c)) s = mu * returned ts x s.
  Proof.
    intros Hl. unfold returned. cbn [fst snd]. rewrite <- rsum_scal. apply rsum_ext. intros c _. rewrite invests_scal, invested_scal. unfold Rdiv. rewrite Rinv_mult. transitivity (lam * / lam * (mu * (snd x c * (invests ts (fst x) s * / invested ts (fst x) c)))); [ring|].
    rewrite Rinv_r by exact Hl. ring.
  Qed.
  Lemma invested_ext tau tau' c : (forall s, tau s = tau' s) -> invested ts tau c = invested ts tau' c.
  Proof. intros H. unfold invested, total_trust. apply rsum_ext. intros s _. unfold invests. now rewrite H. Qed.

  Section OneRound.
    Variables (t : S -> b64) (g : claim -> b64) (x : rscores (S:=S) (V:=V) (W:=W)) (lam mu Kt Kb : R).
    Hypothesis Plam : 0 < lam.
    Hypothesis Pmu : 0 < mu.
    Hypothesis NE : ts <> [].
    Hypothesis Ht : forall s, In s (sources ts) -> dbl (-82) 0 Kt (t s) (lam * fst x s).
    Hypothesis Hg : forall c, In c (claims ts) -> dbl (-82) 20 Kb (g c) (mu * snd x c).
    Notation KB := (Kback Kt Kb).
    Notation KA := (Kbase Kt Kb).
    Notation base := (fun c => invested ts (returned ts x) c).
    Lemma back_x s : In s (sources ts) -> dbl (-204) 142 KB (back64 ts t g s) (mu * returned ts x s).
    Proof. intros Hs. rewrite <- (returned_scal lam mu x s) by lra. exact (back_dbl t g _ _ Kt Kb Ht Hg s Hs). Qed.
    Lemma base_eq c : invested ts (returned ts ((fun s => lam * fst x s), (fun c => mu * snd x c))) c = mu * base c.
    Proof. rewrite <- invested_scal. apply invested_ext. intros s. apply returned_scal. lra. Qed.
    Lemma base_pos c : In c (claims ts) -> 0 < base c.
    Proof. intros Hc. pose proof (dbl_pos _ _ _ _ _ (base_dbl t g _ _ Kt Kb Ht Hg c Hc)) as P. rewrite base_eq in P. apply (Rmult_lt_reg_l mu); [exact Pmu|]. lra. Qed.
    Lemma pow_eq c : In c (claims ts) -> Rpower (invested ts (returned ts ((fun s => lam * fst x s), (fun c => mu * snd x c))) c) gR = Rpower mu gR * Rpower (base c) gR.
    Proof. intros Hc. rewrite base_eq. symmetry. apply Rpower_mult_distr; [exact Pmu|now apply base_pos]. Qed.
    Lemma ret_x c : In c (claims ts) -> dbl (-449) 325 (gR * KA + 2) (ret64 L gm ts t g c) (Rpower mu gR * Rpower (base c) gR).
    Proof. intros Hc. rewrite <- pow_eq by exact Hc. exact (ret_dbl t g _ _ Kt Kb Ht Hg c Hc). Qed.
    Lemma pool_x c : In c (claims ts) -> dbl (-1018) 936 ((1 + 2 * gR) * KA + INR NC + 6) (pool64 L gm ts t g c)
      (mu * (base c * (Rpower (base c) gR / rsum (fun c => Rpower (base c) gR) (rivals ts c)))).
    Proof.
      intros Hc. pose proof (pool_dbl t g _ _ Kt Kb Ht Hg c Hc) as Q. refine (dbl_eq _ _ _ _ _ _ _ Q).
      assert (E : rsum (fun c => Rpower (invested ts (returned ts ((fun s => lam * fst x s), (fun c => mu * snd x c))) c) gR) (rivals ts c) = Rpower mu gR * rsum (fun c => Rpower (base c) gR) (rivals ts c)).
      { rewrite <- rsum_scal. apply rsum_ext. intros c' Hc'. apply pow_eq. unfold rivals in Hc'. apply filter_In in Hc'. tauto. }
      rewrite E, pow_eq by exact Hc. rewrite base_eq. assert (P1 : 0 < Rpower mu gR) by apply exp_pos.
      assert (P2 : 0 < rsum (fun c => Rpower (base c) gR) (rivals ts c)). { apply (rsum_pos _ _ c); [intros; left; apply exp_pos|now apply rivals_self|apply exp_pos]. }
      set (P := Rpower mu gR) in *. set (Sg := rsum _ _) in *. clearbody P Sg. field. lra.
    Qed.
    Lemma trust_next : KB * unit52 <= 1 / 4 -> (forall s, In s (sources ts) -> bpow radix2 (-80) <= by_max (sources ts) (returned ts x) s) ->
      exists m lam', pymax (F:=F) (map (back64 ts t g) (sources ts)) = Some m /\ close KB lam' 1 /\ forall s, In s (sources ts) -> dbl (-82) 0 (KB + 1) (Bdiv mode_NE (back64 ts t g s) m) (lam' * by_max (sources ts) (returned ts x) s).
    Proof. intros HK Low. exact (dbl_norm L _ _ _ mu (back64 ts t g) (returned ts x) (sources ts) (src_ne ts NE) Pmu HK back_x Low). Qed.
    Lemma inv_next : KB * unit52 <= 1 / 4 -> (gR * KA + 2) * unit52 <= 1 / 4 ->
      (forall s, In s (sources ts) -> bpow radix2 (-80) <= fst (inv_step ts gR x) s) -> (forall c, In c (claims ts) -> bpow radix2 (-80) <= snd (inv_step ts gR x) c) ->
      exists t' g' lam' mu', round (F:=F) (Investment gm) d (map t (sources ts), map g (claims ts)) = UNext (F:=F) (map t' (sources ts)) (map t (sources ts)) (map t' (sources ts), map g' (claims ts)) /\
        close KB lam' 1 /\ close (gR * KA + 2) mu' 1 /\ (forall s, In s (sources ts) -> dbl (-82) 0 (KB + 1) (t' s) (lam' * fst (inv_step ts gR x) s)) /\
        (forall c, In c (claims ts) -> dbl (-82) 0 (gR * KA + 3) (g' c) (mu' * snd (inv_step ts gR x) c)).
    Proof.
      intros HK HK' Low Low'. destruct (trust_next HK Low) as (m & lam' & Em & Cl & H1).
      destruct (dbl_norm L _ _ _ (Rpower mu gR) (ret64 L gm ts t g) (fun c => Rpower (base c) gR) (claims ts) (cl_ne ts NE) (exp_pos _) HK' ret_x Low') as (m' & mu' & Em' & Cm & H2).
      exists (fun s => Bdiv mode_NE (back64 ts t g s) m), (fun c => Bdiv mode_NE (ret64 L gm ts t g c) m'), lam', mu'. split; [|split; [exact Cl|split; [exact Cm|split; [exact H1|]]]].
      - cbn [round]. unfold inv_upd. rewrite (upd_eq t g _ Kt Ht), (iv_vec L b f ts d Hb), (scT64 L b f ts d Hb). change (map (tt64 ts (iv64 ts (back64 ts t g))) (claims ts)) with (map (base64 ts t g) (claims ts)). rewrite map_map.
        change (map (fun x : V * W => n_pow (n:=F) (base64 ts t g x) gm) (claims ts)) with (map (ret64 L gm ts t g) (claims ts)). rewrite Em, Em'. unfold vdivs. rewrite !map_map. reflexivity.
      - intros c Hc. replace (gR * KA + 3) with (gR * KA + 2 + 1) by ring. exact (H2 c Hc).
    Qed.
    Lemma pooled_next : KB * unit52 <= 1 / 4 -> ((1 + 2 * gR) * KA + INR NC + 6) * unit52 <= 1 / 4 ->
      (forall s, In s (sources ts) -> bpow radix2 (-80) <= fst (pooled_step ts gR x) s) -> (forall c, In c (claims ts) -> bpow radix2 (-80) <= snd (pooled_step ts gR x) c) ->
      exists t' g' lam' mu', round (F:=F) (PooledInvestment gm) d (map t (sources ts), map g (claims ts)) = UNext (F:=F) (map t' (sources ts)) (map t (sources ts)) (map t' (sources ts), map g' (claims ts)) /\
        close KB lam' 1 /\ close ((1 + 2 * gR) * KA + INR NC + 6) mu' 1 /\ (forall s, In s (sources ts) -> dbl (-82) 0 (KB + 1) (t' s) (lam' * fst (pooled_step ts gR x) s)) /\
        (forall c, In c (claims ts) -> dbl (-82) 0 ((1 + 2 * gR) * KA + INR NC + 7) (g' c) (mu' * snd (pooled_step ts gR x) c)).
    Proof.
      intros HK HK' Low Low'. destruct (trust_next HK Low) as (m & lam' & Em & Cl & H1).
      destruct (dbl_norm L _ _ _ mu (pool64 L gm ts t g) (fun c => base c * (Rpower (base c) gR / rsum (fun c => Rpower (base c) gR) (rivals ts c))) (claims ts) (cl_ne ts NE) Pmu HK' pool_x Low') as (m' & mu' & Em' & Cm & H2).
      exists (fun s => Bdiv mode_NE (back64 ts t g s) m), (fun c => Bdiv mode_NE (pool64 L gm ts t g c) m'), lam', mu'. split; [|split; [exact Cl|split; [exact Cm|split; [exact H1|]]]].
      - cbn [round]. unfold pooled_upd. rewrite (upd_eq t g _ Kt Ht), (iv_vec L b f ts d Hb), (scT64 L b f ts d Hb). change (map (tt64 ts (iv64 ts (back64 ts t g))) (claims ts)) with (map (base64 ts t g) (claims ts)). rewrite map_map.
        change (map (fun x : V * W => n_pow (n:=F) (base64 ts t g x) gm) (claims ts)) with (map (ret64 L gm ts t g) (claims ts)). rewrite (mut64 L b f ts d Hb).
        assert (Ep : vmul (F:=F) (map (base64 ts t g) (claims ts)) (vdiv (F:=F) (map (ret64 L gm ts t g) (claims ts)) (map (tr64 ts (ret64 L gm ts t g)) (claims ts))) = map (pool64 L gm ts t g) (claims ts)).
        { unfold vmul, vdiv. assert (E1 : zipw (@n_div F) (map (ret64 L gm ts t g) (claims ts)) (map (tr64 ts (ret64 L gm ts t g)) (claims ts)) = map (fun c => Bdiv mode_NE (ret64 L gm ts t g c) (tr64 ts (ret64 L gm ts t g) c)) (claims ts)) by apply (zipw_map2 (@n_div F)).
          change (num F) with b64 in *. rewrite E1. apply (zipw_map2 (@n_mul F)). }
        rewrite Ep, Em, Em'. unfold vdivs. rewrite !map_map. reflexivity.
      - intros c Hc. replace ((1 + 2 * gR) * KA + INR NC + 7) with ((1 + 2 * gR) * KA + INR NC + 6 + 1) by ring. exact (H2 c Hc).
    Qed.
  End OneRound.

  (** the prior beliefs *)
  Lemma prior_dbl p bel x0 : prior_beliefs (F:=F) p d = Some bel -> prior_spec ts p = Some x0 -> exists g, bel = map g (claims ts) /\ forall c, In c (claims ts) -> dbl (-82) 20 (INR NC + 1) (g c) (x0 c).
  Proof.
    assert (Sc : source_counts (F:=F) d = map (tt64 ts one) (claims ts)) by (unfold source_counts; rewrite (rep_ns _ _ _ R0), (ones64 L); exact (scT64 L b f ts d Hb one)).
    pose proof (pos_INR NC) as N0. assert (Wd : forall lo hi K v y, (-82 <= lo)%Z -> (hi <= 20)%Z -> K <= INR NC + 1 -> dbl lo hi K v y -> dbl (-82) 20 (INR NC + 1) v y) by (intros lo hi K v y H1 H2 H3; now apply dbl_wide).
    destruct p; cbn [prior_beliefs prior_spec]; intros [= <-] [= <-].
    - exists (fun _ => @lit F 1 2). split; [unfold vfull; rewrite (rep_nc _ _ _ R0); apply (repeat_map (@lit F 1 2))|]. intros c _.
      assert (T : dbl 1 1 0 (ofZ64 2) 2). { exists 2. split; [apply (ofZ64_isf 2); lia|]. split; [change (bpow radix2 1) with 2; lra|apply close_refl; lra]. }
      pose proof (dbl_div _ _ _ _ _ _ _ _ _ _ dbl_one T ltac:(lia) ltac:(lia)) as Q. refine (Wd _ _ _ _ _ _ _ _ Q); [lia|lia|lra].
    - rewrite Sc. pose proof (mut64 L b f ts d Hb (tt64 ts one)) as Em. change (num F) with b64 in *. rewrite Em. clear Em. exists (fun c => Bdiv mode_NE (tt64 ts one c) (tr64 ts (tt64 ts one) c)).
      split; [unfold vdiv; apply (zipw_map2 (@n_div F))|]. intros c Hc. pose proof (tr_dbl 0 20 0 _ (n_supporters ts) c ltac:(lia) ltac:(lia) Hc supp_dbl) as T.
      pose proof (dbl_div _ _ _ _ _ _ _ _ _ _ (supp_dbl c Hc) T ltac:(lia) ltac:(lia)) as Q. refine (Wd _ _ _ _ _ _ _ _ Q); [lia|lia|lra].
    - rewrite Sc. exists (tt64 ts one). split; [reflexivity|]. intros c Hc. refine (Wd _ _ _ _ _ _ _ _ (supp_dbl c Hc)); [lia|lia|lra].
    - rewrite (rep_nc _ _ _ R0), (ones64 L). pose proof (mut64 L b f ts d Hb one) as Em. change (num F) with b64 in *. rewrite Em. clear Em. exists (fun c => Bdiv mode_NE (ofZ64 1) (tr64 ts one c)).
      split; [unfold sdivv; rewrite map_map; reflexivity|]. intros c Hc. pose proof (tr_dbl 0 0 0 one (fun _ => 1) c ltac:(lia) ltac:(lia) Hc (fun _ _ => dbl_one)) as T. rewrite rsum_const, Rmult_1_r in T.
      pose proof (dbl_div _ _ _ _ _ _ _ _ _ _ dbl_one T ltac:(lia) ltac:(lia)) as Q. refine (Wd _ _ _ _ _ _ _ _ Q); [lia|lia|lra].
  Qed.
End Step.

(** ** Specification: the error bound.  [h] is max(1, g) for Investment and 1 + 2 g for PooledInvestment; NS sources, NC claims, k rounds. *)
Definition invest_error (h : R) (NS NC k : nat) : R := h * (3 * (INR NS + INR NC) + 8) * (2 + h) ^ k / 2 ^ 50.
(** every score of the rounds 1..k is at least 2^-80 *)
Definition never_tiny {S V W} {ES : Eqb S} {EV : Eqb V} {EW : Eqb W} (ts : list (S * V * W)) (x : nat -> rscores (S:=S) (V:=V) (W:=W)) (k : nat) : Prop :=
  forall j, (1 <= j <= k)%nat -> (forall s, In s (sources ts) -> / 2 ^ 80 <= fst (x j) s) /\ (forall c, In c (claims ts) -> / 2 ^ 80 <= snd (x j) c).

Section C110.
  Context {S V W : Type} {ES : Eqb S} {EV : Eqb V} {EW : Eqb W}.
  Variable L : libm.
  Notation F := (B64 L).
  Variable gm : F.
  Notation gR := (B2R64 gm).
  Hypothesis Hgm : 0 <= gR <= 2.
  Hypothesis Pow : pow_accurate L gm.
  Variables (b : bool) (f : option (V -> W -> W -> option F)) (ts : list (S * V * W)) (d : dataset S V W F).
  Hypothesis Hb : build (F:=F) b f ts = Ok d.
  Notation NS := (length (sources ts)).
  Notation NC := (length (claims ts)).
  Hypothesis Small_s : (Z.of_nat NS <= 2 ^ 20)%Z.
  Hypothesis Small_c : (Z.of_nat NC <= 2 ^ 20)%Z.
  Let R0 : ds_rep (F:=F) ts f d := build_rep _ _ _ _ Hb.
  Notation D := (INR NS + INR NC).
  Notation rsc := (rscores (S:=S) (V:=V) (W:=W)).

  Inductive method : alg F -> R -> (rsc -> rsc) -> Prop :=
  | m_inv : method (Investment gm) (Rmax 1 gR) (inv_step ts gR)
  | m_pool : method (PooledInvestment gm) (1 + 2 * gR) (pooled_step ts gR).
  Lemma method_h a h step : method a h step -> 1 <= h.
  Proof. intros []; [apply Rmax_l|lra]. Qed.
  Lemma any_next a h step (t : S -> b64) (g : V * W -> b64) (x : rsc) lam mu A : method a h step -> ts <> [] -> 0 < lam -> 0 < mu -> 0 <= A ->
    (forall s, In s (sources ts) -> dbl (-82) 0 A (t s) (lam * fst x s)) -> (forall c, In c (claims ts) -> dbl (-82) 20 (h * A) (g c) (mu * snd x c)) ->
    h * ((2 + h) * A + (3 * D + 13)) * unit52 <= 1 / 4 ->
    (forall s, In s (sources ts) -> bpow radix2 (-80) <= fst (step x) s) -> (forall c, In c (claims ts) -> bpow radix2 (-80) <= snd (step x) c) ->
    exists t' g' lam' mu', round (F:=F) a d (map t (sources ts), map g (claims ts)) = UNext (F:=F) (map t' (sources ts)) (map t (sources ts)) (map t' (sources ts), map g' (claims ts)) /\
      close ((2 + h) * A + (3 * D + 13)) lam' 1 /\ close (h * ((2 + h) * A + (3 * D + 13))) mu' 1 /\
      (forall s, In s (sources ts) -> dbl (-82) 0 ((2 + h) * A + (3 * D + 13)) (t' s) (lam' * fst (step x) s)) /\
      (forall c, In c (claims ts) -> dbl (-82) 20 (h * ((2 + h) * A + (3 * D + 13))) (g' c) (mu' * snd (step x) c)).
  Proof.
    intros M NE Pl Pm PA Ht Hg HK Low Low'. pose proof (method_h _ _ _ M) as H1. pose proof (pos_INR NS) as N1. pose proof (pos_INR NC) as N2. pose proof unit_pos as U.
    set (A' := (2 + h) * A + (3 * D + 13)) in *.
    assert (PA' : 0 <= A') by (unfold A'; nra).
    assert (EK : Kback ts A (h * A) = (2 + h) * A + D + 5) by (unfold Kback; ring). assert (EB : Kbase ts A (h * A) = (2 + h) * A + INR NS + D + 6) by (unfold Kbase; rewrite EK; ring).
    assert (K1 : Kback ts A (h * A) <= A' - 1) by (rewrite EK; unfold A'; lra).
    assert (B1 : Kback ts A (h * A) * unit52 <= 1 / 4). { apply Rle_trans with (h * A' * unit52); [|exact HK]. apply Rmult_le_compat_r; [lra|]. apply Rle_trans with (1 * A'); [lra|]. apply Rmult_le_compat_r; [exact PA'|exact H1]. }
    destruct M.
    - assert (G1 : gR <= Rmax 1 gR) by apply Rmax_r. set (h := Rmax 1 gR) in *.
      assert (PB : 0 <= Kbase ts A (h * A)) by (rewrite EB; nra).
      assert (K2 : gR * Kbase ts A (h * A) + 3 <= h * A'). { apply Rle_trans with (h * Kbase ts A (h * A) + h * 3); [nra|]. rewrite <- Rmult_plus_distr_l. apply Rmult_le_compat_l; [lra|]. rewrite EB. unfold A'. lra. }
      destruct (inv_next L gm Hgm Pow b f ts d Hb Small_s Small_c t g x lam mu A (h * A) Pl Pm NE Ht Hg B1) as (t' & g' & lam' & mu' & R1 & C1 & C2 & T1 & T2); [|exact Low|exact Low'|].
      { apply Rle_trans with (h * A' * unit52); [|exact HK]. apply Rmult_le_compat_r; lra. }
      exists t', g', lam', mu'. split; [exact R1|]. split; [apply (close_mono (Kback ts A (h * A))); [lra|exact C1]|]. split; [refine (close_mono _ _ _ _ _ C2); lra|]. split.
      + intros s Hs. refine (dbl_wide _ _ _ _ _ _ _ _ _ _ _ (T1 s Hs)); [lia|lia|lra].
      + intros c Hc. refine (dbl_wide _ _ _ _ _ _ _ _ _ _ _ (T2 c Hc)); [lia|lia|lra].
    - set (h := 1 + 2 * gR) in *.
      assert (K2 : h * Kbase ts A (h * A) + INR NC + 7 <= h * A'). { apply Rle_trans with (h * Kbase ts A (h * A) + h * (INR NC + 7)); [nra|]. rewrite <- Rmult_plus_distr_l. apply Rmult_le_compat_l; [lra|]. rewrite EB. unfold A'. lra. }
      destruct (pooled_next L gm Hgm Pow b f ts d Hb Small_s Small_c t g x lam mu A (h * A) Pl Pm NE Ht Hg B1) as (t' & g' & lam' & mu' & R1 & C1 & C2 & T1 & T2); [|exact Low|exact Low'|].
      { fold h. apply Rle_trans with (h * A' * unit52); [|exact HK]. apply Rmult_le_compat_r; lra. }
      fold h in C2, T2. exists t', g', lam', mu'. split; [exact R1|]. split; [apply (close_mono (Kback ts A (h * A))); [lra|exact C1]|]. split; [refine (close_mono _ _ _ _ _ C2); lra|]. split.
      + intros s Hs. refine (dbl_wide _ _ _ _ _ _ _ _ _ _ _ (T1 s Hs)); [lia|lia|lra].
      + intros c Hc. refine (dbl_wide _ _ _ _ _ _ _ _ _ _ _ (T2 c Hc)); [lia|lia|lra].
  Qed.
  (** the error after k rounds, in units of 2^-52 *)
  Definition growth (h : R) (k : nat) : R := (3 * D + 8) * (2 + h) ^ k - (3 * D + 13) / 2.
  Lemma growth_S h k : 1 <= h -> (2 + h) * growth h k + (3 * D + 13) <= growth h (Datatypes.S k).
  Proof. intros H. unfold growth. cbn [pow]. pose proof (pos_INR NS). pose proof (pos_INR NC). nra. Qed.
  Lemma growth_low h k : 1 <= h -> INR NC + 1 <= growth h k.
  Proof.
    intros H. assert (P : 1 <= (2 + h) ^ k) by (apply pow_R1_Rle; lra). unfold growth. pose proof (pos_INR NS). assert (N : 1 <= INR NC \/ INR NC = 0) by (destruct NC; [right; reflexivity|left; apply (le_INR 1); lia]).
    pose proof (pos_INR NC). nra.
  Qed.
  Lemma growth_err h k : 1 <= h -> h * growth h k * unit52 <= invest_error h NS NC k / 4.
  Proof.
    intros H. unfold invest_error, growth. rewrite unit52_eq. pose proof (pos_INR NS). pose proof (pos_INR NC). replace (/ 2 ^ 52) with (/ 2 ^ 50 / 4) by (field; apply pow_nonzero; lra).
    assert (P : 0 < / 2 ^ 50) by (apply Rinv_0_lt_compat, pow_lt; lra). unfold Rdiv. set (q := / 2 ^ 50) in *. clearbody q. set (p := (2 + h) ^ k). clearbody p. assert (Z0 : 0 <= h * ((3 * D + 13) * / 2) * q) by (apply Rmult_le_pos; [apply Rmult_le_pos|]; lra). lra.
  Qed.
  Lemma b80 : bpow radix2 (-80) = / 2 ^ 80.
  Proof. change (-80)%Z with (Z.opp 80). rewrite bpow_opp. f_equal. change (bpow radix2 80) with (IZR (2 ^ 80)). rewrite (pow_IZR 2 80). f_equal. Qed.
  Lemma error_mono h k : 1 <= h -> invest_error h NS NC k <= invest_error h NS NC (Datatypes.S k).
  Proof.
    intros H. unfold invest_error. cbn [pow]. assert (P : 0 < / 2 ^ 50) by (apply Rinv_0_lt_compat, pow_lt; lra). unfold Rdiv. apply Rmult_le_compat_r; [lra|]. pose proof (pos_INR NS). pose proof (pos_INR NC).
    apply Rmult_le_compat_l; [nra|]. assert (0 < (2 + h) ^ k) by (apply pow_lt; lra). nra.
  Qed.
  Lemma invest_scores a h step p X0 x0 : method a h step -> init (F:=F) a p d = Some X0 -> prior_spec ts p = Some x0 -> ts <> [] -> forall k, invest_error h NS NC k <= 1 -> never_tiny ts (rounds step ((fun _ => 1), x0)) k ->
    exists t g lam mu, scores (F:=F) a d X0 k = (map t (sources ts), map g (claims ts)) /\ 0 < lam /\ 0 < mu /\
      (forall s, In s (sources ts) -> dbl (-82) 0 (growth h k) (t s) (lam * fst (rounds step ((fun _ => 1), x0) k) s)) /\
      (forall c, In c (claims ts) -> dbl (-82) 20 (h * growth h k) (g c) (mu * snd (rounds step ((fun _ => 1), x0) k) c)) /\
      (k <> 0%nat -> close (growth h k) lam 1 /\ close (h * growth h k) mu 1).
  Proof.
    intros M E0 Ex NE. pose proof (method_h _ _ _ M) as H1.
    assert (E1 : exists bel, prior_beliefs (F:=F) p d = Some bel /\ X0 = (vones (F:=F) (num_sources d), bel)).
    { destruct M; cbn [init] in E0; destruct (prior_beliefs p d) as [bel|]; try discriminate; exists bel; injection E0 as <-; auto. }
    destruct E1 as (bel & Ep & EX0). destruct (prior_dbl L gm Hgm b f ts d Hb Small_s Small_c p bel x0 Ep Ex) as (g0 & Eg0 & Hg0).
    induction k as [|k IH]; intros HE NT.
    - exists (fun _ => ofZ64 1), g0, 1, 1. cbn [scores rounds fst snd]. split; [rewrite EX0, Eg0; f_equal; rewrite (rep_ns _ _ _ R0); apply (ones64 L)|]. split; [lra|]. split; [lra|]. pose proof (growth_low h 0 H1) as G. pose proof (pos_INR NC) as N.
      split; [|split; [|congruence]].
      + intros s _. rewrite Rmult_1_l. refine (dbl_wide _ _ _ _ _ _ _ _ _ _ _ dbl_one); [lia|lia|lra].
      + intros c Hc. rewrite Rmult_1_l. refine (dbl_wide _ _ _ _ _ _ _ _ _ _ _ (Hg0 c Hc)); [lia|lia|nra].
    - destruct IH as (t & g & lam & mu & E & Pl & Pm & Ht & Hg & _); [pose proof (error_mono h k H1); lra|intros j Hj; apply NT; lia|].
      pose proof (growth_low h k H1) as G. pose proof (growth_S h k H1) as G1. pose proof (pos_INR NC) as N. pose proof (pos_INR NS) as N'. pose proof unit_pos as U.
      set (x := rounds step ((fun _ => 1), x0) k) in *. destruct (NT (Datatypes.S k) ltac:(lia)) as (Low & Low'). cbn [rounds] in Low, Low'. fold x in Low, Low'.
      destruct (any_next a h step t g x lam mu (growth h k) M NE Pl Pm ltac:(lra) Ht Hg) as (t' & g' & lam' & mu' & R1 & C1 & C2 & T1 & T2).
      { apply Rle_trans with (h * growth h (Datatypes.S k) * unit52); [|pose proof (growth_err h (Datatypes.S k) H1); lra]. apply Rmult_le_compat_r; [lra|]. apply Rmult_le_compat_l; [lra|exact G1]. }
      { intros s Hs. rewrite b80. now apply Low. } { intros c Hc. rewrite b80. now apply Low'. }
      assert (G2 : h * ((2 + h) * growth h k + (3 * D + 13)) <= h * growth h (Datatypes.S k)) by (apply Rmult_le_compat_l; [lra|exact G1]).
      assert (Er2 : round (F:=F) a d (scores (F:=F) a d X0 k) = UNext (F:=F) (map t' (sources ts)) (map t (sources ts)) (map t' (sources ts), map g' (claims ts))) by (rewrite E; exact R1).
      exists t', g', lam', mu'. split; [cbn [scores]; rewrite Er2; reflexivity|]. split; [apply C1|]. split; [apply C2|]. cbn [rounds]. fold x. split; [|split; [|intros _; split]].
      + intros s Hs. refine (dbl_wide _ _ _ _ _ _ _ _ _ _ _ (T1 s Hs)); [lia|lia|exact G1].
      + intros c Hc. refine (dbl_wide _ _ _ _ _ _ _ _ _ _ _ (T2 c Hc)); [lia|lia|exact G2].
      + exact (close_mono _ _ _ _ G1 C1).
      + exact (close_mono _ _ _ _ G2 C2).
  Qed.
  Lemma settle h K lo hi k lam v y : 1 <= h -> invest_error h NS NC k <= 1 -> K <= h * growth h k -> dbl lo hi K v (lam * y) -> close K lam 1 -> accurate (invest_error h NS NC k) y v.
  Proof.
    intros H1 HE HK (r & Hr & _ & C) Cl. pose proof (growth_err h k H1) as G. pose proof unit_pos as U. pose proof (growth_low h k H1) as G0. pose proof (pos_INR NC) as N.
    assert (Py : 0 < y). { apply (Rmult_lt_reg_l lam); [apply Cl|]. pose proof (proj1 (proj2 C)). lra. }
    assert (C2 : close (K + K) r y). { apply close_trans with (lam * y); [exact C|]. rewrite <- (Rplus_0_r K). replace y with (1 * y) at 2 by ring. apply close_mul; [exact Cl|now apply close_refl]. }
    assert (Q : K * unit52 <= invest_error h NS NC k / 4) by (apply Rle_trans with (h * growth h k * unit52); [apply Rmult_le_compat_r; lra|exact G]).
    assert (Ac : accurate (2 * ((K + K) * unit52)) y v) by (apply (close_accurate _ _ _ r); [lra|exact Hr|exact C2]).
    destruct Ac as (Fv & Hv). split; [exact Fv|]. eapply Rle_trans; [exact Hv|]. apply Rmult_le_compat_r; lra.
  Qed.
  Lemma method_agrees a h step clock fuel p it lg r o' k x0 : method a h step -> run (F:=F) clock fuel (AObj a p it lg) d = (Ok r, o') -> r_iterations r = Some k -> k <> 0%nat ->
    prior_spec ts p = Some x0 -> never_tiny ts (rounds step ((fun _ => 1), x0)) k -> invest_error h NS NC k <= 1 ->
    agrees (invest_error h NS NC k) ts r (rounds step ((fun _ => 1), x0) k).
  Proof.
    intros M H Hk Hk0 Ex NT HE. pose proof (method_h _ _ _ M) as H1. apply (run_cases b f ts d Hb) in H. destruct H as (NE & X0 & k' & it' & E0 & El & x & Ef & ->). cbn in Hk. injection Hk as ->.
    destruct (invest_scores a h step p X0 x0 M E0 Ex NE k HE NT) as (t & g & lam & mu & E & _ & _ & Ht & Hg & C). destruct (C Hk0) as (C1 & C2). pose proof (growth_low h k H1) as G. pose proof (pos_INR NC) as N.
    assert (Na : a <> UnboundedSums) by (destruct M; discriminate). apply (final_ok a it' _ x Na) in Ef. rewrite E in Ef. subst x. cbn [fst snd]. exists t, g. split; [apply (reports64 L ts); reflexivity|]. split.
    - intros s Hs. exact (settle h (growth h k) _ _ k lam _ _ H1 HE ltac:(nra) (Ht s Hs) C1).
    - intros c Hc. exact (settle h (h * growth h k) _ _ k mu _ _ H1 HE ltac:(lra) (Hg c Hc) C2).
  Qed.

  (** Investment: after k rounds every trust and belief is the number of the published recurrence, up to a relative error of
      max(1,g) (3 (NS+NC) + 8) (2 + max(1,g))^k 2^-50, provided no score of these rounds is below 2^-80 *)
  Theorem C110_investment clock fuel p it lg r o' k x0 : run (F:=F) clock fuel (AObj (Investment gm) p it lg) d = (Ok r, o') -> r_iterations r = Some k -> k <> 0%nat ->
    prior_spec ts p = Some x0 -> never_tiny ts (rounds (inv_step ts gR) ((fun _ => 1), x0)) k -> invest_error (Rmax 1 gR) NS NC k <= 1 ->
    agrees (invest_error (Rmax 1 gR) NS NC k) ts r (rounds (inv_step ts gR) ((fun _ => 1), x0) k).
  Proof. apply method_agrees, m_inv. Qed.
  (** PooledInvestment: the same with (1+2g) (3 (NS+NC) + 8) (3 + 2g)^k 2^-50 *)
  Theorem C110_pooled_investment clock fuel p it lg r o' k x0 : run (F:=F) clock fuel (AObj (PooledInvestment gm) p it lg) d = (Ok r, o') -> r_iterations r = Some k -> k <> 0%nat ->
    prior_spec ts p = Some x0 -> never_tiny ts (rounds (pooled_step ts gR) ((fun _ => 1), x0)) k -> invest_error (1 + 2 * gR) NS NC k <= 1 ->
    agrees (invest_error (1 + 2 * gR) NS NC k) ts r (rounds (pooled_step ts gR) ((fun _ => 1), x0) k).
  Proof. apply method_agrees, m_pool. Qed.

  (** a value ahead of its rivals by more than the error is the one reported as most believed *)
  Theorem C110_investment_winner clock fuel p it lg r o' k x0 c : run (F:=F) clock fuel (AObj (Investment gm) p it lg) d = (Ok r, o') -> r_iterations r = Some k -> k <> 0%nat ->
    prior_spec ts p = Some x0 -> never_tiny ts (rounds (inv_step ts gR) ((fun _ => 1), x0)) k -> invest_error (Rmax 1 gR) NS NC k <= 1 ->
    let e := invest_error (Rmax 1 gR) NS NC k in let bel := snd (rounds (inv_step ts gR) ((fun _ => 1), x0) k) in
    In c (claims ts) -> (forall c', In c' (rivals ts c) -> c' <> c -> bel c' * (1 + e) < bel c * (1 - e)) -> get_most_believed_values (F:=F) r (fst c) = Ok [snd c].
  Proof. intros H Hk Hk0 Ex NT HE e bel Hc Hw. exact (agrees_winner L ts _ _ _ (C110_investment clock fuel p it lg r o' k x0 H Hk Hk0 Ex NT HE) c Hc Hw). Qed.
  Theorem C110_pooled_investment_winner clock fuel p it lg r o' k x0 c : run (F:=F) clock fuel (AObj (PooledInvestment gm) p it lg) d = (Ok r, o') -> r_iterations r = Some k -> k <> 0%nat ->
    prior_spec ts p = Some x0 -> never_tiny ts (rounds (pooled_step ts gR) ((fun _ => 1), x0)) k -> invest_error (1 + 2 * gR) NS NC k <= 1 ->
    let e := invest_error (1 + 2 * gR) NS NC k in let bel := snd (rounds (pooled_step ts gR) ((fun _ => 1), x0) k) in
    In c (claims ts) -> (forall c', In c' (rivals ts c) -> c' <> c -> bel c' * (1 + e) < bel c * (1 - e)) -> get_most_believed_values (F:=F) r (fst c) = Ok [snd c].
  Proof. intros H Hk Hk0 Ex NT HE e bel Hc Hw. exact (agrees_winner L ts _ _ _ (C110_pooled_investment clock fuel p it lg r o' k x0 H Hk Hk0 Ex NT HE) c Hc Hw). Qed.

  (** with FixedIterator(n), n >= 1, the run returns, and its scores are accurate *)
  Lemma error_le h j k : 1 <= h -> (j <= k)%nat -> invest_error h NS NC j <= invest_error h NS NC k.
  Proof. intros H. induction 1 as [|m _ IH]; [lra|]. pose proof (error_mono h m H). lra. Qed.
  (** no early finish *)
  Lemma no_break a h step p X0 x0 n : method a h step -> init (F:=F) a p d = Some X0 -> prior_spec ts p = Some x0 -> ts <> [] -> invest_error h NS NC n <= 1 -> never_tiny ts (rounds step ((fun _ => 1), x0)) n ->
    forall j, (j < n)%nat -> stops (F:=F) a d X0 j = false.
  Proof.
    intros M E0 Ex NE HE NT j Hj. pose proof (method_h _ _ _ M) as H1. pose proof (error_le h (Datatypes.S j) n H1 ltac:(lia)) as Q. pose proof (error_mono h j H1) as Q1.
    destruct (invest_scores a h step p X0 x0 M E0 Ex NE j ltac:(lra) ltac:(intros i Hi; apply NT; lia)) as (t & g & lam & mu & E & Pl & Pm & Ht & Hg & _).
    pose proof (growth_low h j H1) as G. pose proof (growth_S h j H1) as G1. pose proof (pos_INR NC) as N. pose proof (pos_INR NS) as N'. pose proof unit_pos as U.
    set (x := rounds step ((fun _ => 1), x0) j) in *. destruct (NT (Datatypes.S j) ltac:(lia)) as (Low & Low'). cbn [rounds] in Low, Low'. fold x in Low, Low'.
    destruct (any_next a h step t g x lam mu (growth h j) M NE Pl Pm ltac:(lra) Ht Hg) as (t' & g' & lam' & mu' & R1 & _).
    { apply Rle_trans with (h * growth h (Datatypes.S j) * unit52); [|pose proof (growth_err h (Datatypes.S j) H1); lra]. apply Rmult_le_compat_r; [lra|]. apply Rmult_le_compat_l; [lra|exact G1]. }
    { intros s Hs. rewrite b80. now apply Low. } { intros c Hc. rewrite b80. now apply Low'. }
    assert (Er2 : round (F:=F) a d (scores (F:=F) a d X0 j) = UNext (F:=F) (map t' (sources ts)) (map t (sources ts)) (map t' (sources ts), map g' (claims ts))) by (rewrite E; exact R1).
    unfold stops. rewrite Er2. reflexivity.
  Qed.
  Lemma method_returns a h step clock fuel p n st lg x0 : method a h step -> ts <> [] -> (1 <= n)%Z -> (Z.to_nat n < fuel)%nat -> prior_spec ts p = Some x0 ->
    never_tiny ts (rounds step ((fun _ => 1), x0)) (Z.to_nat n) -> invest_error h NS NC (Z.to_nat n) <= 1 ->
    exists r, fst (run (F:=F) clock fuel (AObj a p (IFixed n st) lg) d) = Ok r /\ r_iterations r = Some (Z.to_nat n) /\ agrees (invest_error h NS NC (Z.to_nat n)) ts r (rounds step ((fun _ => 1), x0) (Z.to_nat n)).
  Proof.
    intros M NE Hn Hf Ex NT HE. assert (Ha : a <> UnboundedSums) by (destruct M; discriminate). assert (Hp : p <> BadPrior) by (intros ->; discriminate).
    destruct (C28_fixed_returns b f ts d Hb clock fuel a p n st lg NE Ha Hp Hf) as (r & Hr). destruct (run (F:=F) clock fuel (AObj a p (IFixed n st) lg) d) as [q o'] eqn:E. cbn [fst] in Hr |- *. subst q. exists r. split; [reflexivity|].
    assert (Ek : r_iterations r = Some (Z.to_nat n)).
    { pose proof E as E'. apply (run_cases b f ts d Hb) in E'. destruct E' as (_ & X0 & k & it' & E0 & El & x & Ef & ->). cbn [r_iterations]. f_equal.
      pose proof (no_break a h step p X0 x0 (Z.to_nat n) M E0 Ex NE HE NT) as NB. clear - El NB. cbn [reset] in El.
      assert (G : forall fu0 j k' it', (j <= Z.to_nat n)%nat -> it_loop (F:=F) (cmp1 (F:=F) a d X0) (cmp2 (F:=F) a d X0) (stops (F:=F) a d X0) fu0 (IFixed n j) j = ((Ok tt, k'), it') -> k' = Z.to_nat n).
      { clear El. induction fu0 as [|fu IH]; intros j k' it1 Hj E; [discriminate|]. cbn [it_loop finished] in E. destruct (Z.leb_spec n (Z.of_nat j)) as [Q|Q].
        - injection E as <- _. lia.
        - rewrite (NB j ltac:(lia)) in E. cbn [compare] in E. apply IH in E; [exact E|lia]. }
      apply (G fuel 0%nat k it'); [lia|exact El]. }
    split; [exact Ek|]. exact (method_agrees a h step clock fuel p _ lg r o' _ x0 M E Ek ltac:(lia) Ex NT HE).
  Qed.
  Theorem C110_investment_returns clock fuel p n st lg x0 : ts <> [] -> (1 <= n)%Z -> (Z.to_nat n < fuel)%nat -> prior_spec ts p = Some x0 ->
    never_tiny ts (rounds (inv_step ts gR) ((fun _ => 1), x0)) (Z.to_nat n) -> invest_error (Rmax 1 gR) NS NC (Z.to_nat n) <= 1 ->
    exists r, fst (run (F:=F) clock fuel (AObj (Investment gm) p (IFixed n st) lg) d) = Ok r /\ r_iterations r = Some (Z.to_nat n) /\
      agrees (invest_error (Rmax 1 gR) NS NC (Z.to_nat n)) ts r (rounds (inv_step ts gR) ((fun _ => 1), x0) (Z.to_nat n)).
  Proof. apply method_returns, m_inv. Qed.
  Theorem C110_pooled_investment_returns clock fuel p n st lg x0 : ts <> [] -> (1 <= n)%Z -> (Z.to_nat n < fuel)%nat -> prior_spec ts p = Some x0 ->
    never_tiny ts (rounds (pooled_step ts gR) ((fun _ => 1), x0)) (Z.to_nat n) -> invest_error (1 + 2 * gR) NS NC (Z.to_nat n) <= 1 ->
    exists r, fst (run (F:=F) clock fuel (AObj (PooledInvestment gm) p (IFixed n st) lg) d) = Ok r /\ r_iterations r = Some (Z.to_nat n) /\
      agrees (invest_error (1 + 2 * gR) NS NC (Z.to_nat n)) ts r (rounds (pooled_step ts gR) ((fun _ => 1), x0) (Z.to_nat n)).
  Proof. apply method_returns, m_pool. Qed.
  (** in particular, the run in doubles agrees with the run of the same code in exact arithmetic (with the real value of g), whenever both make the same
      number of rounds *)
  Theorem C110_investment_exact b' f' (dx : dataset S V W XR) : build (F:=XR) b' (real_imp f') ts = Ok dx ->
    forall clock clock' fuel fuel' p it it' lg lg' r rx o o' k x0, run (F:=F) clock fuel (AObj (Investment gm) p it lg) d = (Ok r, o) -> run (F:=XR) clock' fuel' (AObj (Investment (Fin gR)) p it' lg') dx = (Ok rx, o') ->
    r_iterations r = Some k -> r_iterations rx = Some k -> k <> 0%nat -> prior_spec ts p = Some x0 -> never_tiny ts (rounds (inv_step ts gR) ((fun _ => 1), x0)) k ->
    let e := invest_error (Rmax 1 gR) NS NC k in e <= 1 ->
    (forall s, In s (sources ts) -> exists q v, trust_of rx s = Some (Fin q) /\ trust_of r s = Some v /\ accurate e q v) /\
    (forall c, In c (claims ts) -> exists q v, belief_of rx c = Some (Fin q) /\ belief_of r c = Some v /\ accurate e q v).
  Proof.
    intros Hbx clock clock' fuel fuel' p it it' lg lg' r rx o o' k x0 H Hx Hk Hkx Hk0 Ep NT e HE.
    destruct (C110_investment clock fuel p it lg r o k x0 H Hk Hk0 Ep NT HE) as (t & g & (Rt & Rb & _) & Ht & Hg).
    destruct (C36_investment_recurrence b' f' ts dx Hbx clock' fuel' gR p it' lg' rx o' Hx) as (y0 & k' & Es & Ek & (Xt & Xb & _) & _). rewrite Hkx in Ek. injection Ek as <-. cbn [start] in Es. rewrite Ep in Es. cbn in Es. injection Es as <-.
    split.
    - intros s Hs. pose proof Hs as M. apply mem_In in M. exists (fst (rounds (inv_step ts gR) ((fun _ => 1), x0) k) s), (t s). rewrite Rt, Xt, M. repeat split; try reflexivity; now apply Ht.
    - intros c Hc. pose proof Hc as M. apply mem_In in M. exists (snd (rounds (inv_step ts gR) ((fun _ => 1), x0) k) c), (g c). rewrite Rb, Xb, M. repeat split; try reflexivity; now apply Hg.
  Qed.
  Theorem C110_pooled_investment_exact b' f' (dx : dataset S V W XR) : build (F:=XR) b' (real_imp f') ts = Ok dx ->
    forall clock clock' fuel fuel' p it it' lg lg' r rx o o' k x0, run (F:=F) clock fuel (AObj (PooledInvestment gm) p it lg) d = (Ok r, o) -> run (F:=XR) clock' fuel' (AObj (PooledInvestment (Fin gR)) p it' lg') dx = (Ok rx, o') ->
    r_iterations r = Some k -> r_iterations rx = Some k -> k <> 0%nat -> prior_spec ts p = Some x0 -> never_tiny ts (rounds (pooled_step ts gR) ((fun _ => 1), x0)) k ->
    let e := invest_error (1 + 2 * gR) NS NC k in e <= 1 ->
    (forall s, In s (sources ts) -> exists q v, trust_of rx s = Some (Fin q) /\ trust_of r s = Some v /\ accurate e q v) /\
    (forall c, In c (claims ts) -> exists q v, belief_of rx c = Some (Fin q) /\ belief_of r c = Some v /\ accurate e q v).
  Proof.
    intros Hbx clock clock' fuel fuel' p it it' lg lg' r rx o o' k x0 H Hx Hk Hkx Hk0 Ep NT e HE.
    destruct (C110_pooled_investment clock fuel p it lg r o k x0 H Hk Hk0 Ep NT HE) as (t & g & (Rt & Rb & _) & Ht & Hg).
    destruct (C37_pooled_recurrence b' f' ts dx Hbx clock' fuel' gR p it' lg' rx o' Hx) as (y0 & k' & Es & Ek & (Xt & Xb & _) & _). rewrite Hkx in Ek. injection Ek as <-. cbn [start] in Es. rewrite Ep in Es. cbn in Es. injection Es as <-.
    split.
    - intros s Hs. pose proof Hs as M. apply mem_In in M. exists (fst (rounds (pooled_step ts gR) ((fun _ => 1), x0) k) s), (t s). rewrite Rt, Xt, M. repeat split; try reflexivity; now apply Ht.
    - intros c Hc. pose proof Hc as M. apply mem_In in M. exists (snd (rounds (pooled_step ts gR) ((fun _ => 1), x0) k) c), (g c). rewrite Rb, Xb, M. repeat split; try reflexivity; now apply Hg.
  Qed.
End C110.

(** ** Non-vacuity: a correctly rounded pow is accurate for every exponent in [0, 2] (the defaults 1.2 and 1.4 included), and runs that meet the conditions *)
Module InvestAccExamples.
  Lemma rounded_pow_accurate (g : b64) : 0 <= B2R64 g <= 2 -> pow_accurate AccuracyExamples.lm g.
  Proof.
    intros Hg x (Fx & Hx). pose proof (pow_range _ _ Hg Hx) as (P1 & P2). cbn [AccuracyExamples.lm lm_pow]. set (y := Rpower (B2R64 x) (B2R64 g)) in *. pose proof (bpow_gt_0 radix2 (-448)) as P0.
    assert (I : isf (AccuracyExamples.of_R y) (rnd y)). { apply AccuracyExamples.of_R_isf. rewrite Rabs_pos_eq by lra. apply Rle_lt_trans with (bpow radix2 324); [exact P2|apply bpow_lt; lia]. }
    split; [apply I|]. rewrite (proj2 I). assert (Q : bpow radix2 (-1022) <= y) by (apply Rle_trans with (bpow radix2 (-448)); [apply bpow_le; lia|exact P1]). rewrite <- unit52_eq.
    destruct (rnd_rel _ Q) as (_ & _ & R1 & R2). cbn [pow] in R1, R2. rewrite Rmult_1_r in R1, R2. unfold ulp1 in R1, R2. fold unit52 in R1, R2. pose proof unit_pos as U. apply Rabs_le. split; [|nra].
    destruct (Rle_dec (rnd y) y) as [Le|]; [|nra]. assert (rnd y * unit52 <= y * unit52) by (apply Rmult_le_compat_r; lra). lra.
  Qed.
  Notation vs := AlgExamples.vs.
  Lemma builds : exists d : dataset nat nat nat (B64 AccuracyExamples.lm), build (F:=B64 AccuracyExamples.lm) false None vs = Ok d.
  Proof.
    destruct (build_strict (F:=B64 AccuracyExamples.lm) None vs) as [(_ & _ & d & E & _)|[(_ & N & _)|(s & x & H & _)]].
    - exists d. exact E.
    - exfalso. apply N. intros c c' q _ _ H. unfold imp_val in H. destruct (_ && _)%bool; discriminate.
    - exfalso. apply (first_repeat_not_NoDup _ _ _ H). unfold vs, AlgExamples.vs, sv_pairs; cbn. repeat constructor; cbn; intuition congruence.
  Qed.
  Definition half : nat * nat -> R := fun _ => 1 / 2.
  Definition x0 : rscores (S:=nat) (V:=nat) (W:=nat) := ((fun _ => 1), half).
  Lemma src s : In s (sources vs) -> s = 1%nat \/ s = 2%nat \/ s = 3%nat. Proof. intros H. vm_compute in H. intuition. Qed.
  Lemma clm c : In c (claims vs) -> c = (0, 1)%nat \/ c = (0, 2)%nat. Proof. intros H. vm_compute in H. intuition. Qed.
  Lemma ret1 : returned vs x0 1%nat = 1 / 4 /\ returned vs x0 2%nat = 1 / 4 /\ returned vs x0 3%nat = 1 / 2.
  Proof.
    assert (S1 : supporters vs (0, 1)%nat = [1; 2]%nat) by reflexivity. assert (S2 : supporters vs (0, 2)%nat = [3]%nat) by reflexivity.
    assert (C1 : claims_of vs 1%nat = [(0, 1)%nat]) by reflexivity. assert (C2 : claims_of vs 2%nat = [(0, 1)%nat]) by reflexivity. assert (C3 : claims_of vs 3%nat = [(0, 2)%nat]) by reflexivity.
    unfold returned, x0, half. cbn [fst snd]. rewrite C1, C2, C3. cbn [rsum fold_right map]. unfold invested, total_trust. rewrite S1, S2. cbn [rsum fold_right map]. unfold invests, n_claims. rewrite C1, C2, C3. cbn [length]. change (INR 1) with 1. repeat split; field.
  Qed.
  Lemma invd c : In c (claims vs) -> invested vs (returned vs x0) c = 1 / 2.
  Proof.
    destruct ret1 as (E1 & E2 & E3). assert (S1 : supporters vs (0, 1)%nat = [1; 2]%nat) by reflexivity. assert (S2 : supporters vs (0, 2)%nat = [3]%nat) by reflexivity.
    assert (C1 : claims_of vs 1%nat = [(0, 1)%nat]) by reflexivity. assert (C2 : claims_of vs 2%nat = [(0, 1)%nat]) by reflexivity. assert (C3 : claims_of vs 3%nat = [(0, 2)%nat]) by reflexivity.
    intros Hc. destruct (clm c Hc) as [->| ->]; unfold invested, total_trust, invests, n_claims; rewrite ?S1, ?S2; cbn [rsum fold_right map]; rewrite ?E1, ?E2, ?E3, ?C1, ?C2, ?C3; cbn [length]; change (INR 1) with 1; field.
  Qed.
  Lemma small80 : / 2 ^ 80 <= 1 / 2.
  Proof. unfold Rdiv. rewrite Rmult_1_l. apply Rinv_le; [lra|]. apply Rle_trans with (2 ^ 1); [lra|]. apply Rle_pow; [lra|lia]. Qed.
  Lemma trust_low s : In s (sources vs) -> / 2 ^ 80 <= by_max (sources vs) (returned vs x0) s.
  Proof.
    intros Hs. destruct ret1 as (E1 & E2 & E3). apply Rle_trans with (1 / 2); [apply small80|]. assert (M : rmax (returned vs x0) (sources vs) = 1 / 2).
    { assert (In3 : In 3%nat (sources vs)) by (vm_compute; auto). pose proof (rmax_ge (returned vs x0) _ _ In3) as G. rewrite E3 in G. destruct (rmax_In (returned vs x0) (sources vs)) as (y & Hy & Ey); [intros Q; rewrite Q in In3; destruct In3|].
      destruct (src y Hy) as [->|[->| ->]]; rewrite Ey in *; lra. }
    unfold by_max. rewrite M. destruct (src s Hs) as [->|[->| ->]]; lra.
  Qed.
  Lemma const_max (h : nat * nat -> R) v c : 0 < v -> (forall c, In c (claims vs) -> h c = v) -> In c (claims vs) -> / 2 ^ 80 <= by_max (claims vs) h c.
  Proof.
    intros Pv Hh Hc. apply Rle_trans with (1 / 2); [apply small80|]. unfold by_max. destruct (rmax_In h (claims vs)) as (y & Hy & Ey); [intros Q; rewrite Q in Hc; destruct Hc|]. rewrite Ey, (Hh y Hy), (Hh c Hc). unfold Rdiv. rewrite (Rinv_r v) by lra. lra.
  Qed.
  Example inv_not_tiny g : never_tiny vs (rounds (inv_step vs g) x0) 1.
  Proof.
    intros j Hj. replace j with 1%nat by lia. cbn [rounds]. split; [exact trust_low|]. intros c Hc. unfold inv_step. cbn [snd].
    apply (const_max _ (Rpower (1 / 2) g)); [apply exp_pos| |exact Hc]. intros y Hy. now rewrite invd.
  Qed.
  Example pooled_not_tiny g : never_tiny vs (rounds (pooled_step vs g) x0) 1.
  Proof.
    intros j Hj. replace j with 1%nat by lia. cbn [rounds]. split; [exact trust_low|]. intros c Hc. unfold pooled_step. cbn [snd].
    apply (const_max _ (1 / 4)); [lra| |exact Hc]. intros y Hy. assert (Q : rsum (fun c => Rpower (invested vs (returned vs x0) c) g) (rivals vs y) = 2 * Rpower (1 / 2) g).
    { rewrite (rsum_ext _ (fun _ => Rpower (1 / 2) g)) by (intros z Hz; rewrite invd; [reflexivity|unfold rivals in Hz; apply filter_In in Hz; tauto]). rewrite rsum_const. destruct (clm y Hy) as [->| ->]; cbn; ring. }
    rewrite Q, invd by exact Hy. assert (P : 0 < Rpower (1 / 2) g) by apply exp_pos. set (u := Rpower (1 / 2) g) in *. clearbody u. field. lra.
  Qed.
  (** one round of either, for any exponent between 0 and 2: it returns, and every score is right to a relative error below 10^-11 *)
  Lemma error_small h : 1 <= h <= 5 -> invest_error h (length (sources vs)) (length (claims vs)) 1 <= / 10 ^ 11.
  Proof.
    intros Hh. unfold invest_error. change (length (sources vs)) with 3%nat. change (length (claims vs)) with 2%nat. rewrite pow_1. replace (3 * (INR 3 + INR 2) + 8) with 23 by (cbn; ring).
    apply Rle_trans with (805 / 2 ^ 50); [|lra]. unfold Rdiv. apply Rmult_le_compat_r; [left; apply Rinv_0_lt_compat, pow_lt; lra|]. nra.
  Qed.
  Example one_round (g : b64) : 0 <= B2R64 g <= 2 -> exists d : dataset nat nat nat (B64 AccuracyExamples.lm), build (F:=B64 AccuracyExamples.lm) false None vs = Ok d /\
    (exists r, fst (run (F:=B64 AccuracyExamples.lm) (fun _ => ofZ64 0) 5 (AObj (Investment (g : B64 AccuracyExamples.lm)) FIXED (IFixed 1 0) None) d) = Ok r /\ r_iterations r = Some 1%nat /\
       invest_error (Rmax 1 (B2R64 g)) 3 2 1 <= / 10 ^ 11 /\ agrees (invest_error (Rmax 1 (B2R64 g)) 3 2 1) vs r (rounds (inv_step vs (B2R64 g)) x0 1)) /\
    (exists r, fst (run (F:=B64 AccuracyExamples.lm) (fun _ => ofZ64 0) 5 (AObj (PooledInvestment (g : B64 AccuracyExamples.lm)) FIXED (IFixed 1 0) None) d) = Ok r /\ r_iterations r = Some 1%nat /\
       invest_error (1 + 2 * B2R64 g) 3 2 1 <= / 10 ^ 11 /\ agrees (invest_error (1 + 2 * B2R64 g) 3 2 1) vs r (rounds (pooled_step vs (B2R64 g)) x0 1)).
  Proof.
    intros Hg. destruct builds as (d & E). exists d. split; [exact E|]. assert (Ns : (Z.of_nat (length (sources vs)) <= 2 ^ 20)%Z) by (vm_compute; discriminate). assert (Nc : (Z.of_nat (length (claims vs)) <= 2 ^ 20)%Z) by (vm_compute; discriminate).
    assert (T : / 10 ^ 11 <= 1) by lra.
    split.
    - assert (He : invest_error (Rmax 1 (B2R64 g)) (length (sources vs)) (length (claims vs)) 1 <= / 10 ^ 11) by (apply error_small; split; [apply Rmax_l|apply Rmax_lub; lra]).
      destruct (C110_investment_returns AccuracyExamples.lm g Hg (rounded_pow_accurate g Hg) false None vs d E Ns Nc (fun _ => ofZ64 0) 5 FIXED 1 0 None half ltac:(discriminate) ltac:(lia) ltac:(cbn; lia) eq_refl (inv_not_tiny _) ltac:(change (Z.to_nat 1) with 1%nat; lra)) as (r & R1 & R2 & R3).
      exists r. split; [exact R1|]. split; [exact R2|]. split; [exact He|exact R3].
    - assert (He : invest_error (1 + 2 * B2R64 g) (length (sources vs)) (length (claims vs)) 1 <= / 10 ^ 11) by (apply error_small; lra).
      destruct (C110_pooled_investment_returns AccuracyExamples.lm g Hg (rounded_pow_accurate g Hg) false None vs d E Ns Nc (fun _ => ofZ64 0) 5 FIXED 1 0 None half ltac:(discriminate) ltac:(lia) ltac:(cbn; lia) eq_refl (pooled_not_tiny _) ltac:(change (Z.to_nat 1) with 1%nat; lra)) as (r & R1 & R2 & R3).
      exists r. split; [exact R1|]. split; [exact R2|]. split; [exact He|exact R3].
  Qed.
End InvestAccExamples.
