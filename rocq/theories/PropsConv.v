(** C59: the ranking iterator always stops; C60: Sums and AverageLog converge.  Exact arithmetic. *)
From Coq Require Import Reals Lra.
From Verif Require Import Base Num Sparse Spec SpecAlg Dataset DatasetProofs DatasetRep Iterators Algorithms Driver Distance Ranking Rounds
  AlgRep AlgRounds AlgTF AlgPack PropsData PropsIter PropsRun PropsAlg PropsOrd ExpSum Spectral Conv.
Local Open Scope R_scope.

(** ** The loop of an ordinal iterator whose rankings agree from round [N] on *)
Section OrdLoop.
  Context {F : Num}.
  Variables (a b : nat -> vec F) (brk : nat -> bool) (t : Z) (N : nat).
  Hypothesis Hr : forall j, exists r1 r2, get_ranking_vector (a j) = Some r1 /\ get_ranking_vector (b j) = Some r2 /\ ((N <= j)%nat -> vall_eq r1 r2 = true).
  Hypothesis Hb : forall j, brk j = false.
  Let budget k c := (N - k + (if (k <? N)%nat then Z.to_nat t else Z.to_nat t - c))%nat.
  Lemma it_loop_ord_settles fuel : forall n c k, (budget k c < fuel)%nat ->
    exists k' it', it_loop a b brk fuel (IOrd t n c) k = ((Ok tt, k'), it') /\ (k <= k')%nat /\ (k' <= k + budget k c)%nat /\ (t <= Z.of_nat (c + (k' - k)))%Z.
  Proof.
    induction fuel as [|m IH]; intros n c k Hf; [lia|].
    cbn [it_loop finished]. destruct (Z.leb_spec t (Z.of_nat c)) as [L|L].
    - exists k, (IOrd t n c). repeat split; try lia.
    - rewrite Hb. destruct (Hr k) as (r1 & r2 & E1 & E2 & Hv). cbn [compare]. rewrite E1, E2.
      set (c' := if vall_eq r1 r2 then Datatypes.S c else 0%nat).
      assert (Bd : (budget (Datatypes.S k) c' < budget k c)%nat).
      { unfold budget, c'. destruct (Nat.ltb_spec k N); destruct (Nat.ltb_spec (Datatypes.S k) N); try lia.
        rewrite Hv by lia. lia. }
      destruct (IH (Datatypes.S n) c' (Datatypes.S k) ltac:(lia)) as (k' & it' & E' & K1 & K2 & K3). exists k', it'. split; [exact E'|].
      repeat split; try lia. unfold c' in K3. destruct (vall_eq r1 r2); lia.
  Qed.
End OrdLoop.
Lemma ord_count {F : Num} (a b : nat -> vec F) brk t fuel : forall n c k, (forall j, brk j = false) -> forall k' it', it_loop a b brk fuel (IOrd t n c) k = ((Ok tt, k'), it') ->
  (k <= k')%nat /\ (t <= Z.of_nat (c + (k' - k)))%Z.
Proof.
  induction fuel as [|m IH]; intros n c k Hb k' it' H; [discriminate|]. cbn [it_loop finished] in H. destruct (Z.leb_spec t (Z.of_nat c)) as [L|L].
  - injection H as <- _. split; lia.
  - rewrite Hb in H. cbn [compare] in H. destruct (get_ranking_vector (a k)), (get_ranking_vector (b k)); try discriminate.
    apply IH in H; [|exact Hb]. destruct H as [H1 H2]. destruct (vall_eq _ _); split; lia.
Qed.
Lemma vall_eq_fv {A} (f g : A -> nat) l : (forall x, In x l -> f x = g x) -> @vall_eq XR (map (fun x => Fin (INR (f x))) l) (map (fun x => Fin (INR (g x))) l) = true.
Proof.
  induction l as [|y l IH]; intros H; [reflexivity|]. unfold vall_eq. cbn [map zipw forallb]. rewrite (H y (or_introl eq_refl)).
  change (@n_eqb XR (Fin (INR (g y))) (Fin (INR (g y)))) with (reqb (INR (g y)) (INR (g y))). rewrite reqb_refl. cbn [andb]. apply IH. intros; apply H; now right.
Qed.

Section C59.
  Context {S V W : Type} {ES : Eqb S} {EV : Eqb V} {EW : Eqb W}.
  Notation data := (dataset S V W XR).
  Notation claim := (V * W)%type.
  Notation rscores := (@rscores S V W).
  Notation result := (result S V W xr).
  Variables (b : bool) (f : option (V -> W -> W -> option R)) (ts : list (S * V * W)) (d : data).
  Hypothesis Hb : build b (real_imp f) ts = Ok d.
  Let R0 : ds_rep ts (real_imp f) d := build_rep _ _ _ _ Hb.

  (** the algorithms whose recurrence is linear up to normalisation *)
  Definition linear (a : alg XR) : Prop := a = Sums \/ a = AverageLog \/ a = UnboundedSums.
  Definition weight (a : alg XR) (s : S) : R := match a with AverageLog => ln (n_claims ts s) / n_claims ts s | _ => 1 end.
  Notation wst a := (wstep ts (weight a)).

  Lemma weight_nonneg a s : In s (sources ts) -> 0 <= weight a s.
  Proof.
    intros Hs. destruct a; cbn [weight]; try lra. pose proof (n_claims_ge1 ts s Hs) as G. unfold Rdiv. apply Rmult_le_pos; [|left; apply Rinv_0_lt_compat; lra].
    rewrite <- ln_1. destruct G as [G|<-]; [left; apply ln_increasing; lra|right; reflexivity].
  Qed.
  Lemma linear_params a : linear a -> params_ok a.
  Proof. intros [->|[->| ->]]; exact I. Qed.
  Lemma wst_multiple w x y : multiple ts x y -> multiple ts (wstep ts w x) (wstep ts w y).
  Proof.
    intros (q1 & q2 & H1 & H2 & Hs & Hc). exists q2, q2. repeat split; auto; cbn [fst snd wstep].
    - intros s _. rewrite (total_belief_scal ts _ _ _ s Hc). ring.
    - intros c _. unfold total_trust. rewrite <- rsum_scal. apply rsum_ext. intros s _. rewrite (total_belief_scal ts _ _ _ s Hc). ring.
  Qed.
  Lemma wst_plain x0 a k : a <> AverageLog -> (forall s, fst (rounds (wst a) x0 k) s = fst (rounds (plain_step ts) x0 k) s) /\ (forall c, snd (rounds (wst a) x0 k) c = snd (rounds (plain_step ts) x0 k) c).
  Proof.
    intros Ha. assert (W1 : forall s, weight a s = 1) by (intros; destruct a; try reflexivity; congruence).
    induction k as [|k [IH1 IH2]]; [split; reflexivity|]. cbn [rounds wstep plain_step fst snd].
    assert (E : forall s, weight a s * total_belief ts (snd (rounds (wst a) x0 k)) s = total_belief ts (snd (rounds (plain_step ts) x0 k)) s).
    { intros s. rewrite W1, Rmult_1_l. unfold total_belief. apply rsum_ext. intros; apply IH2. }
    split; [exact E|]. intros c. unfold total_trust. apply rsum_ext. intros; apply E.
  Qed.

  (** facts about one round from good scores *)
  Definition raw (a : alg XR) (x : rscores) : S -> R := fst (wst a x).
  Lemma raw_avlog x s : raw AverageLog x s = avlog_trust ts (snd x) s.
  Proof. unfold raw, wstep, weight, avlog_trust. cbn [fst]. unfold Rdiv. ring. Qed.
  Lemma raw_facts a x : ts <> [] -> a = Sums \/ a = AverageLog -> data_ok ts a -> good ts a x ->
    (forall s, In s (sources ts) -> 0 <= raw a x s) /\ 0 < rmax (raw a x) (sources ts) /\
    (forall c, 0 <= total_trust ts (raw a x) c) /\ 0 < rmax (total_trust ts (raw a x)) (claims ts).
  Proof.
    intros NE Ha Hd Hg.
    assert (TT : forall t : S -> R, (forall s, In s (sources ts) -> 0 <= t s) -> forall c, 0 <= total_trust ts t c).
    { intros t Ht c. apply rsum_nonneg. intros s Hs. apply Ht. now apply (supporters_sources ts s c). }
    destruct Ha as [->| ->]; cbn [good data_ok] in *.
    - assert (P1 : forall s, In s (sources ts) -> 0 < raw Sums x s) by (intros s Hs; unfold raw, wstep, weight; cbn [fst]; rewrite Rmult_1_l; now apply total_belief_pos).
      assert (P2 : forall c, In c (claims ts) -> 0 < total_trust ts (raw Sums x) c) by (intros; now apply total_trust_pos).
      split; [intros; left; auto|]. split; [now apply rmax_src_pos|]. split; [apply TT; intros; left; auto|now apply rmax_cl_pos].
    - destruct (avlog_round ts (real_imp f) d R0 NE x Hd Hg) as (_ & _ & P1 & P2).
      assert (Q1 : forall s, In s (sources ts) -> 0 <= raw AverageLog x s) by (intros s Hs; rewrite raw_avlog; apply avlog_trust_nonneg; [exact (proj1 Hg)|exact Hs]).
      split; [exact Q1|]. split; [|split; [now apply TT|]].
      + rewrite (rmax_ext _ (avlog_trust ts (snd x))); [exact P1|]. intros; apply raw_avlog.
      + rewrite (rmax_ext _ (total_trust ts (avlog_trust ts (snd x)))); [exact P2|]. intros c _. unfold total_trust. apply rsum_ext. intros; apply raw_avlog.
  Qed.
  Lemma step_raw a x : a = Sums \/ a = AverageLog ->
    (forall s, fst (step_of f ts a x) s = by_max (sources ts) (raw a x) s) /\ (forall c, snd (step_of f ts a x) c = by_max (claims ts) (total_trust ts (raw a x)) c).
  Proof.
    intros Ha.
    assert (E : exists T : S -> R, step_of f ts a x = (by_max (sources ts) T, by_max (claims ts) (total_trust ts T)) /\ forall s, T s = raw a x s).
    { destruct Ha as [->| ->]; cbn [step_of].
      - exists (total_belief ts (snd x)). split; [reflexivity|]. intros s. unfold raw, wstep, weight. cbn [fst]. ring.
      - exists (avlog_trust ts (snd x)). split; [reflexivity|]. intros s. symmetry. apply raw_avlog. }
    destruct E as (T & -> & E). cbn [fst snd]. assert (E2 : forall c, total_trust ts T c = total_trust ts (raw a x) c) by (intros c; unfold total_trust; apply rsum_ext; auto).
    split; intros z; unfold by_max.
    - rewrite E. f_equal. apply rmax_ext. auto.
    - rewrite E2. f_equal. apply rmax_ext. auto.
  Qed.
  Lemma linear_multiple a x0 k : ts <> [] -> linear a -> data_ok ts a -> good ts a x0 -> multiple ts (rounds (step_of f ts a) x0 k) (rounds (wst a) x0 k).
  Proof.
    intros NE Ha Hd Hg. induction k as [|k IH]; [apply multiple_refl|]. cbn [rounds]. eapply multiple_trans; [|apply wst_multiple, IH].
    pose proof (proj2 (pack_scores b f ts d Hb NE a x0 (linear_params a Ha) Hd Hg k)) as G. set (x := rounds (step_of f ts a) x0 k) in *.
    assert (Q : (a = Sums \/ a = AverageLog) \/ a = UnboundedSums) by (unfold linear in Ha; tauto). destruct Q as [Q| ->].
    - destruct (raw_facts a x NE Q Hd G) as (_ & P1 & _ & P2). destruct (step_raw a x Q) as [E1 E2].
      exists (/ rmax (raw a x) (sources ts)), (/ rmax (total_trust ts (raw a x)) (claims ts)).
      split; [now apply Rinv_0_lt_compat|]. split; [now apply Rinv_0_lt_compat|]. split; intros z _.
      + rewrite E1. unfold by_max, Rdiv, raw. apply Rmult_comm.
      + rewrite E2. unfold by_max, Rdiv. change (snd (wst a x) z) with (total_trust ts (raw a x) z). apply Rmult_comm.
    - cbn [step_of]. destruct (downscale_scal (sources ts) (total_belief ts (snd x))) as (q1 & H1 & E1).
      destruct (downscale_scal (claims ts) (total_trust ts (total_belief ts (snd x)))) as (q2 & H2 & E2).
      exists q1, q2. repeat split; auto; intros z _; cbn [fst snd usums_step wstep weight].
      + rewrite E1. ring.
      + rewrite E2. f_equal. unfold total_trust. apply rsum_ext. intros; ring.
  Qed.

  (** the rankings settle *)
  Lemma ranks_settle a x0 : exists N, forall k, (N <= k)%nat ->
    (forall s, In s (sources ts) -> rrank (fst (rounds (wst a) x0 k)) (sources ts) s = rrank (fst (rounds (wst a) x0 N)) (sources ts) s) /\
    (forall c, In c (claims ts) -> rrank (snd (rounds (wst a) x0 k)) (claims ts) c = rrank (snd (rounds (wst a) x0 N)) (claims ts) c).
  Proof.
    pose proof (fun s => weight_nonneg a s) as W0.
    destruct (expseq_rank (fun p s => fst (rounds (wst a) x0 (Datatypes.S (Datatypes.S p))) s) (sources ts)) as [N1 K1]; [intros s _; now apply wtrust_expseq|].
    destruct (expseq_rank (fun p c => snd (rounds (wst a) x0 (Datatypes.S p)) c) (claims ts)) as [N2 K2]; [intros c Hc; now apply wbelief_expseq|].
    exists (2 + N1 + N2)%nat. intros k Hk. split; intros z Hz.
    - specialize (K1 (k - 2)%nat (N1 + N2)%nat ltac:(lia) ltac:(lia) z Hz). cbn beta in K1. replace (Datatypes.S (Datatypes.S (k - 2))) with k in K1 by lia. exact K1.
    - specialize (K2 (k - 1)%nat (1 + N1 + N2)%nat ltac:(lia) ltac:(lia) z Hz). cbn beta in K2. replace (Datatypes.S (k - 1)) with k in K2 by lia. exact K2.
  Qed.
  (** ranks of what is compared in round k: those of rounds k and k+1 of the weighted recurrence, in one order or the other *)
  Lemma compared_ranks a x0 k : ts <> [] -> linear a -> data_ok ts a -> good ts a x0 -> forall s, In s (sources ts) ->
    let x := rounds (step_of f ts a) x0 k in let r j := rrank (fst (rounds (wst a) x0 j)) (sources ts) s in
    let r1 := rrank (fst (compared f ts a x)) (sources ts) s in let r2 := rrank (snd (compared f ts a x)) (sources ts) s in
    (r1 = r k /\ r2 = r (Datatypes.S k)) \/ (r1 = r (Datatypes.S k) /\ r2 = r k).
  Proof.
    intros NE Ha Hd Hg s Hs. cbn zeta.
    pose proof (linear_multiple a x0 k NE Ha Hd Hg) as M. destruct (multiple_ranks ts _ _ M) as [M1 _].
    destruct (multiple_ranks ts _ _ (linear_multiple a x0 (Datatypes.S k) NE Ha Hd Hg)) as [M2 _]. specialize (M1 s Hs). specialize (M2 s Hs). cbn [rounds] in M2.
    set (x := rounds (step_of f ts a) x0 k) in *. destruct Ha as [->|[->| ->]]; cbn [compared fst snd].
    - left. split; [exact M1|exact M2].
    - right. split; [exact M2|exact M1].
    - left. split; [exact M1|]. destruct M as (_ & q2 & _ & H2 & _ & Hc). cbn [rounds].
      rewrite (rrank_ext _ (fun s => q2 * fst (wst UnboundedSums (rounds (wst UnboundedSums) x0 k)) s)); [now apply rrank_scal| |exact Hs].
      intros s' _. rewrite (total_belief_scal ts _ _ _ s' Hc). cbn [wstep fst weight]. ring.
  Qed.

  (** With an ordinal iterator, every run of UnboundedSums, Sums or AverageLog returns: after at most N + t rounds, where t
      is the iterator's threshold and N only depends on the data set, the algorithm and the prior. *)
  Theorem C59_terminates a p : a = Sums \/ a = UnboundedSums \/ (a = AverageLog /\ exists s, In s (sources ts) /\ (2 <= length (claims_of ts s))%nat) ->
    ts <> [] -> p <> BadPrior ->
    exists N, forall clock fuel t n c lg, (N + Z.to_nat t < fuel)%nat ->
      exists r o' k, run clock fuel (AObj a p (IOrd t n c) lg) d = (Ok r, o') /\ r_iterations r = Some k /\ (t <= Z.of_nat k)%Z /\ (k <= N + Z.to_nat t)%nat.
  Proof.
    intros Ha' NE Hp. assert (Ha : linear a) by (unfold linear; tauto). assert (Hd : data_ok ts a) by (destruct Ha' as [->|[->|[-> H]]]; [exact I|exact I|exact H]).
    assert (E0 : exists x0, start ts a p = Some x0) by (destruct Ha as [->|[->| ->]]; cbn [start]; destruct p; cbn [prior_spec option_map]; eauto; congruence).
    destruct E0 as [x0 E0]. pose proof (pack_start_good ts a p x0 (linear_params a Ha) E0) as Hg.
    destruct (ranks_settle a x0) as [N K]. exists N. intros clock fuel t n c lg Hf.
    rewrite (run_char clock ts (real_imp f) d R0 NE). pose proof (pack_start b f ts d Hb NE a p (linear_params a Ha)) as PS. rewrite E0 in PS. rewrite PS. cbn [option_map reset].
    pose proof (pack_cmp b f ts d Hb NE a x0 (linear_params a Ha) Hd Hg) as C.
    destruct (it_loop_ord_settles (cmp1 a d (denote ts x0)) (cmp2 a d (denote ts x0)) (stops a d (denote ts x0)) t N) with (fuel := fuel) (n := 0%nat) (c := 0%nat) (k := 0%nat) as (k' & it' & L & K1 & K2 & K3).
    - intros j. destruct (C j) as (-> & -> & _). unfold tvec. rewrite !ranking_fv. eexists. eexists. split; [reflexivity|]. split; [reflexivity|]. intros Hj.
      apply vall_eq_fv. intros s Hs. destruct (K j Hj) as [K0 _]. destruct (K (Datatypes.S j) ltac:(lia)) as [K00 _]. specialize (K0 s Hs). specialize (K00 s Hs).
      destruct (compared_ranks a x0 j NE Ha Hd Hg s Hs) as [[-> ->]|[-> ->]]; congruence.
    - intros j. apply C.
    - destruct (Nat.ltb_spec 0 N); lia.
    - pose proof (it_loop_reset (cmp1 a d (denote ts x0)) (cmp2 a d (denote ts x0)) (stops a d (denote ts x0)) fuel (IOrd t 0 0) 0) as Q.
      rewrite L in *. cbn [snd reset] in Q.
      assert (I' : exists t n c, it' = IOrd t n c) by (destruct it'; cbn in Q; try discriminate; eauto). destruct I' as (t' & n' & c' & ->).
      rewrite (proj1 (pack_scores b f ts d Hb NE a x0 (linear_params a Ha) Hd Hg k')).
      assert (Kn : (k' <= N + Z.to_nat t)%nat) by (destruct (Nat.ltb_spec 0 N); lia). assert (Kt : (t <= Z.of_nat k')%Z) by (rewrite Nat.sub_0_r in K3; exact K3).
      destruct Ha as [->|[->| ->]]; cbn [step_of].
      + cbn [final]. eexists. eexists. exists k'. split; [reflexivity|]. split; [reflexivity|]. auto.
      + cbn [final]. eexists. eexists. exists k'. split; [reflexivity|]. split; [reflexivity|]. auto.
      + rewrite denote_ranks. eexists. eexists. exists k'. split; [reflexivity|]. split; [reflexivity|]. auto.
  Qed.
  (** [x] holds the ranks of the plain recurrence (no division at all) from some round on *)
  Definition limit_ranking (x0 x : rscores) : Prop := exists N, forall k, (N <= k)%nat ->
    (forall s, In s (sources ts) -> fst x s = INR (rrank (fst (rounds (plain_step ts) x0 k)) (sources ts) s)) /\
    (forall c, In c (claims ts) -> snd x c = INR (rrank (snd (rounds (plain_step ts) x0 k)) (claims ts) c)).
  (** The rankings of the plain recurrence settle, and UnboundedSums reports the final ranking if its threshold is large enough. *)
  Theorem C59_limit_ranking p x0 : start ts UnboundedSums p = Some x0 -> exists x, limit_ranking x0 x /\
    exists T, forall clock fuel t n c lg r o', (T <= t)%Z -> run clock fuel (AObj UnboundedSums p (IOrd t n c) lg) d = (Ok r, o') -> reports_real ts r x.
  Proof.
    intros E0. destruct (ranks_settle UnboundedSums x0) as [N K]. set (x := ranks ts (rounds (plain_step ts) x0 N)).
    assert (Lk : forall k, (N <= k)%nat ->
      (forall s, In s (sources ts) -> fst x s = INR (rrank (fst (rounds (plain_step ts) x0 k)) (sources ts) s)) /\
      (forall c, In c (claims ts) -> snd x c = INR (rrank (snd (rounds (plain_step ts) x0 k)) (claims ts) c))).
    { intros k Hk. destruct (K k Hk) as [K1 K2]. destruct (wst_plain x0 UnboundedSums k ltac:(discriminate)) as [P1 P2]. destruct (wst_plain x0 UnboundedSums N ltac:(discriminate)) as [P3 P4].
      split; intros z Hz; cbn [x ranks fst snd]; f_equal.
      - rewrite <- (rrank_ext _ _ _ (fun s _ => P1 s) z Hz), <- (rrank_ext _ _ _ (fun s _ => P3 s) z Hz). symmetry. now apply K1.
      - rewrite <- (rrank_ext _ _ _ (fun s _ => P2 s) z Hz), <- (rrank_ext _ _ _ (fun s _ => P4 s) z Hz). symmetry. now apply K2. }
    exists x. split; [exists N; exact Lk|]. exists (Z.of_nat N). intros clock fuel t n c lg r o' Ht H.
    destruct (run_has_start b f ts d Hb clock fuel UnboundedSums p (IOrd t n c) lg r o' I H) as (NE & _).
    assert (Hp : p <> BadPrior) by (intros ->; discriminate E0).
    destruct (C40_ranks_of_plain_recurrence b f ts d Hb clock fuel p t n c lg r o' H) as (x0' & k & E0' & Ek & Rp).
    assert (x0' = x0) as -> by (change (start ts (@UnboundedSums (num XR)) p = Some x0') in E0'; rewrite E0 in E0'; now injection E0').
    apply (reports_ext ts r (ranks ts (rounds (plain_step ts) x0 k))); [| |exact Rp]; assert (Hk : (N <= k)%nat).
    1,3: (rewrite (run_char clock ts (real_imp f) d R0 NE) in H; pose proof (pack_start b f ts d Hb NE UnboundedSums p I) as PS; rewrite E0 in PS; rewrite PS in H; cbn [option_map reset] in H;
      pose proof (ord_count (cmp1 UnboundedSums d (denote ts x0)) (cmp2 UnboundedSums d (denote ts x0)) (stops UnboundedSums d (denote ts x0)) t fuel 0 0 0) as Q;
      assert (Bk : forall j, stops UnboundedSums d (denote ts x0) j = false) by (intros j; exact (proj2 (proj2 (pack_cmp b f ts d Hb NE UnboundedSums x0 I I I j))));
      specialize (Q Bk); destruct (it_loop _ _ _ fuel (IOrd t 0 0) 0) as [[q k'] it']; destruct q as [[]|e]; [|discriminate];
      specialize (Q k' it' eq_refl); destruct (final _ _ _) as [x'|]; [|discriminate]; injection H as <- _; cbn in Ek; injection Ek as ->; lia).
    - intros s Hs. symmetry. now apply Lk.
    - intros s Hs. symmetry. now apply Lk.
  Qed.
End C59.

(** ** Convergence *)
Section C60.
  Context {S V W : Type} {ES : Eqb S} {EV : Eqb V} {EW : Eqb W}.
  Notation data := (dataset S V W XR).
  Notation claim := (V * W)%type.
  Notation rscores := (@rscores S V W).
  Notation result := (result S V W xr).
  Variables (b : bool) (f : option (V -> W -> W -> option R)) (ts : list (S * V * W)) (d : data).
  Hypothesis Hb : build b (real_imp f) ts = Ok d.
  Let R0 : ds_rep ts (real_imp f) d := build_rep _ _ _ _ Hb.
  Notation wst a := (wstep ts (weight ts a)).

  (** Sums, or AverageLog on data where some source makes two claims *)
  Definition converging (a : alg XR) : Prop := a = Sums \/ (a = AverageLog /\ exists s, In s (sources ts) /\ (2 <= length (claims_of ts s))%nat).

  Lemma by_max_scal {A} (l : list A) g q x : 0 < q -> by_max l (fun y => q * g y) x = by_max l g x.
  Proof. intros Hq. unfold by_max. rewrite rmax_scal by lra. unfold Rdiv. rewrite Rinv_mult. transitivity (q * / q * (g x * / rmax g l)); [ring|]. rewrite Rinv_r by lra. ring. Qed.
  Lemma by_max_ext {A} (l : list A) g h x : (forall y, In y l -> g y = h y) -> In x l -> by_max l g x = by_max l h x.
  Proof. intros H Hx. unfold by_max. now rewrite (H x Hx), (rmax_ext g h l H). Qed.
  Lemma finite_choice {A} {EA : Eqb A} (P : A -> R -> Prop) (l : list A) : (forall x, In x l -> exists z, P x z) -> exists g, forall x, In x l -> P x (g x).
  Proof.
    induction l as [|y l IH]; intros H; [exists (fun _ => 0); intros x []|]. destruct IH as [g G]; [intros; apply H; now right|]. destruct (H y (or_introl eq_refl)) as [z Z].
    exists (fun x => if beq x y then z else g x). intros x Hx. destruct (beq_spec x y) as [->|N]; [exact Z|]. destruct Hx as [->|Hx]; [congruence|auto].
  Qed.

  Section Limit.
    Variables (a : alg XR) (x0 : rscores).
    Hypothesis NE : ts <> [].
    Hypothesis Hc : converging a.
    Hypothesis Hg : good ts a x0.
    Let x k := rounds (step_of f ts a) x0 k.
    Let y k := rounds (wst a) x0 k.
    Lemma conv_sa : a = Sums \/ a = AverageLog. Proof. destruct Hc as [->|[-> _]]; auto. Qed.
    Lemma conv_lin : linear a. Proof. destruct Hc as [->|[-> _]]; unfold linear; auto. Qed.
    Lemma conv_data : data_ok ts a. Proof. destruct Hc as [->|[-> H]]; [exact I|exact H]. Qed.
    Lemma conv_good k : good ts a (x k).
    Proof. exact (proj2 (pack_scores b f ts d Hb NE a x0 (linear_params a conv_lin) conv_data Hg k)). Qed.
    Lemma raw_scal k : exists q, 0 < q /\ (forall s, In s (sources ts) -> raw ts a (x k) s = q * fst (y (Datatypes.S k)) s) /\
      (forall c, In c (claims ts) -> total_trust ts (raw ts a (x k)) c = q * snd (y (Datatypes.S k)) c).
    Proof.
      destruct (linear_multiple b f ts d Hb a x0 k NE conv_lin conv_data Hg) as (q1 & q2 & H1 & H2 & Hs & Hcl). exists q2. split; [exact H2|]. fold (x k) (y k) in *. unfold y at 1 2. cbn [rounds]. fold (y k).
      split; intros z _.
      - unfold raw, wstep. cbn [fst]. rewrite (total_belief_scal ts _ _ _ z Hcl). ring.
      - unfold raw, wstep, total_trust. cbn [fst snd]. rewrite <- rsum_scal. apply rsum_ext. intros s _. rewrite (total_belief_scal ts _ _ _ s Hcl). ring.
    Qed.
    Lemma x_step k : (forall s, fst (x (Datatypes.S k)) s = by_max (sources ts) (raw ts a (x k)) s) /\ (forall c, snd (x (Datatypes.S k)) c = by_max (claims ts) (total_trust ts (raw ts a (x k))) c).
    Proof. exact (step_raw f ts a (x k) conv_sa). Qed.
    Lemma x_norm k : (forall s, In s (sources ts) -> fst (x (Datatypes.S k)) s = by_max (sources ts) (fst (y (Datatypes.S k))) s) /\
      (forall c, In c (claims ts) -> snd (x (Datatypes.S k)) c = by_max (claims ts) (snd (y (Datatypes.S k))) c).
    Proof.
      destruct (x_step k) as [E1 E2]. destruct (raw_scal k) as (q & Hq & Es & Ec). split; intros z Hz.
      - rewrite E1, (by_max_ext _ _ _ z Es Hz). now apply by_max_scal.
      - rewrite E2, (by_max_ext _ _ _ z Ec Hz). now apply by_max_scal.
    Qed.
    Lemma y_facts k : (forall s, In s (sources ts) -> 0 <= fst (y (Datatypes.S k)) s) /\ 0 < rmax (fst (y (Datatypes.S k))) (sources ts) /\
      (forall c, In c (claims ts) -> 0 <= snd (y (Datatypes.S k)) c) /\ 0 < rmax (snd (y (Datatypes.S k))) (claims ts).
    Proof.
      destruct (raw_facts b f ts d Hb a (x k) NE conv_sa conv_data (conv_good k)) as (A1 & A2 & A3 & A4). destruct (raw_scal k) as (q & Hq & Es & Ec).
      rewrite (rmax_ext _ _ _ Es) in A2. rewrite (rmax_ext _ _ _ Ec) in A4. rewrite rmax_scal in A2 by lra. rewrite rmax_scal in A4 by lra. split; [|split; [|split]].
      - intros s Hs. specialize (A1 s Hs). rewrite (Es s Hs) in A1. apply Rmult_le_reg_l with q; lra.
      - apply Rmult_lt_reg_l with q; lra.
      - intros c Hcl. specialize (A3 c). rewrite (Ec c Hcl) in A3. apply Rmult_le_reg_l with q; lra.
      - apply Rmult_lt_reg_l with q; lra.
    Qed.
    (** limits of the scores, and places where the maxima are attained from some round on *)
    Lemma limits : exists (z : rscores) js jc, In js (sources ts) /\ In jc (claims ts) /\
      (forall s, In s (sources ts) -> Un_cv (fun k => fst (x k) s) (fst z s)) /\ (forall c, In c (claims ts) -> Un_cv (fun k => snd (x k) c) (snd z c)) /\
      eventually (fun k => rmax (raw ts a (x k)) (sources ts) = raw ts a (x k) js) /\
      eventually (fun k => rmax (total_trust ts (raw ts a (x k))) (claims ts) = total_trust ts (raw ts a (x k)) jc).
    Proof.
      pose proof (fun s => weight_nonneg ts a s) as W0.
      destruct (expseq_by_max (fun p s => fst (y (Datatypes.S (Datatypes.S p))) s) (sources ts)) as [(js & Hjs & Ms) Ls].
      - exact (src_ne ts NE).
      - intros s _. now apply wtrust_expseq.
      - intros p s Hs. now apply y_facts.
      - intros p. exact (proj1 (proj2 (y_facts (Datatypes.S p)))).
      - destruct (expseq_by_max (fun p c => snd (y (Datatypes.S p)) c) (claims ts)) as [(jc & Hjc & Mc) Lc].
        + exact (cl_ne ts NE).
        + intros c Hcl. now apply wbelief_expseq.
        + intros p c Hcl. now apply y_facts.
        + intros p. exact (proj2 (proj2 (proj2 (y_facts p)))).
        + destruct (finite_choice _ _ Ls) as [zs Zs]. destruct (finite_choice _ _ Lc) as [zc Zc]. exists (zs, zc), js, jc. cbn [fst snd].
          split; [exact Hjs|]. split; [exact Hjc|]. split; [|split; [|split]].
          * intros s Hs. apply (cv_unshift _ _ 2). refine (cv_ext _ _ _ _ (Zs s Hs)). intros n. symmetry. now apply x_norm.
          * intros c Hcl. apply (cv_unshift _ _ 1). refine (cv_ext _ _ _ _ (Zc c Hcl)). intros n. symmetry. now apply x_norm.
          * destruct Ms as [N Ms]. exists (Datatypes.S N). intros k Hk. destruct (raw_scal k) as (q & Hq & Es & _). rewrite (rmax_ext _ _ _ Es), rmax_scal by lra. rewrite (Es js Hjs). f_equal.
            specialize (Ms (k - 1)%nat ltac:(lia)). cbn beta in Ms. replace (Datatypes.S (k - 1)) with k in Ms by lia. exact Ms.
          * destruct Mc as [N Mc]. exists N. intros k Hk. destruct (raw_scal k) as (q & Hq & _ & Ec). rewrite (rmax_ext _ _ _ Ec), rmax_scal by lra. rewrite (Ec jc Hjc). f_equal. now apply Mc.
    Qed.
    Lemma cv_ge u z lo : eventually (fun n => lo <= u n) -> Un_cv u z -> lo <= z.
    Proof. intros [N H] C. apply (cv_le (fun n => u (N + n)%nat)); [intros; apply H; lia|now apply cv_shift]. Qed.
    Lemma x_range k : (forall s, In s (sources ts) -> 0 <= fst (x (Datatypes.S k)) s <= 1) /\ (forall c, In c (claims ts) -> 0 <= snd (x (Datatypes.S k)) c <= 1).
    Proof.
      destruct (y_facts k) as (A1 & A2 & A3 & A4). destruct (x_norm k) as [E1 E2]. split; intros z Hz.
      - rewrite E1 by exact Hz. now apply by_max_nonneg.
      - rewrite E2 by exact Hz. now apply by_max_nonneg.
    Qed.
    (** the limit has a trust and a belief of 1, and is a fixed point *)
    Lemma limit_fixed : exists z : rscores, (forall s, In s (sources ts) -> Un_cv (fun k => fst (x k) s) (fst z s)) /\ (forall c, In c (claims ts) -> Un_cv (fun k => snd (x k) c) (snd z c)) /\
      (exists s, In s (sources ts) /\ fst z s = 1) /\ (exists c, In c (claims ts) /\ snd z c = 1) /\
      (forall s, In s (sources ts) -> fst (step_of f ts a z) s = fst z s) /\ (forall c, In c (claims ts) -> snd (step_of f ts a z) c = snd z c).
    Proof.
      destruct limits as (z & js & jc & Hjs & Hjc & Cs & Cc & Ms & Mc). exists z. split; [exact Cs|]. split; [exact Cc|].
      pose proof (fun k => raw_facts b f ts d Hb a (x k) NE conv_sa conv_data (conv_good k)) as RF.
      assert (CT : forall s, Un_cv (fun k => raw ts a (x k) s) (raw ts a z s)).
      { intros s. unfold raw, wstep. cbn [fst]. apply cv_scal. unfold total_belief. apply (cv_rsum (fun k c => snd (x k) c)). intros c Hcl. apply Cc. unfold claims_of in Hcl. apply filter_In in Hcl. tauto. }
      assert (CU : forall c, Un_cv (fun k => total_trust ts (raw ts a (x k)) c) (total_trust ts (raw ts a z) c)) by (intros c; unfold total_trust; apply (cv_rsum (fun k s => raw ts a (x k) s)); intros; apply CT).
      assert (FT : forall s, In s (sources ts) -> raw ts a z s = fst z s * raw ts a z js).
      { intros s Hs. apply (UL_sequence (fun k => raw ts a (x k) s)); [apply CT|].
        apply (cv_eventually (fun k => fst (x (1 + k)%nat) s * raw ts a (x k) js)); [|apply (CV_mult (fun k => fst (x (1 + k)%nat) s) (fun k => raw ts a (x k) js)); [apply (cv_shift (fun k => fst (x k) s) _ 1); now apply Cs|apply CT]].
        revert Ms. apply eventually_mono. intros k E. destruct (RF k) as (_ & P & _). destruct (x_step k) as [E1 _]. change (1 + k)%nat with (Datatypes.S k). rewrite E1. unfold by_max. rewrite <- E. field. lra. }
      assert (FU : forall c, In c (claims ts) -> total_trust ts (raw ts a z) c = snd z c * total_trust ts (raw ts a z) jc).
      { intros c Hcl. apply (UL_sequence (fun k => total_trust ts (raw ts a (x k)) c)); [apply CU|].
        apply (cv_eventually (fun k => snd (x (1 + k)%nat) c * total_trust ts (raw ts a (x k)) jc)); [|apply (CV_mult (fun k => snd (x (1 + k)%nat) c) (fun k => total_trust ts (raw ts a (x k)) jc)); [apply (cv_shift (fun k => snd (x k) c) _ 1); now apply Cc|apply CU]].
        revert Mc. apply eventually_mono. intros k E. destruct (RF k) as (_ & _ & _ & P). destruct (x_step k) as [_ E1]. change (1 + k)%nat with (Datatypes.S k). rewrite E1. unfold by_max. rewrite <- E. field. lra. }
      assert (Z1 : forall s, In s (sources ts) -> 0 <= fst z s <= 1).
      { intros s Hs. split; [apply (cv_ge (fun k => fst (x k) s)); [|now apply Cs]|apply Ropp_le_cancel, (cv_ge (fun k => - fst (x k) s)); [|apply (CV_opp (fun k => fst (x k) s)); now apply Cs]];
          exists 1%nat; intros k Hk; (destruct k as [|k]; [lia|]); pose proof (proj1 (x_range k) s Hs); lra. }
      assert (Z2 : forall c, In c (claims ts) -> 0 <= snd z c <= 1).
      { intros s Hs. split; [apply (cv_ge (fun k => snd (x k) s)); [|now apply Cc]|apply Ropp_le_cancel, (cv_ge (fun k => - snd (x k) s)); [|apply (CV_opp (fun k => snd (x k) s)); now apply Cc]];
          exists 1%nat; intros k Hk; (destruct k as [|k]; [lia|]); pose proof (proj2 (x_range k) s Hs); lra. }
      assert (J1 : fst z js = 1).
      { apply (UL_sequence (fun k => fst (x (1 + k)%nat) js)); [apply (cv_shift (fun k => fst (x k) js) _ 1); now apply Cs|]. apply (cv_eventually (fun _ => 1)); [|apply cv_const].
        revert Ms. apply eventually_mono. intros k E. destruct (RF k) as (_ & P & _). destruct (x_step k) as [E1 _]. change (1 + k)%nat with (Datatypes.S k). rewrite E1. unfold by_max. rewrite E in *. field. lra. }
      assert (J2 : snd z jc = 1).
      { apply (UL_sequence (fun k => snd (x (1 + k)%nat) jc)); [apply (cv_shift (fun k => snd (x k) jc) _ 1); now apply Cc|]. apply (cv_eventually (fun _ => 1)); [|apply cv_const].
        revert Mc. apply eventually_mono. intros k E. destruct (RF k) as (_ & _ & _ & P). destruct (x_step k) as [_ E1]. change (1 + k)%nat with (Datatypes.S k). rewrite E1. unfold by_max. rewrite E in *. field. lra. }
      split; [eauto|]. split; [eauto|].
      (* the claim with belief 1 has a supporter of positive weight *)
      assert (PS : exists s, In s (sources ts) /\ says ts s jc = true /\ 0 < weight ts a s).
      { destruct Mc as [N Mc]. destruct (RF N) as (Q0 & _ & _ & P). rewrite (Mc N (le_n N)) in P. unfold total_trust in P.
        destruct (Classical_Prop.classic (exists s, In s (supporters ts jc) /\ 0 < raw ts a (x N) s)) as [(s & Hs & Ps)|No].
        - exists s. pose proof (supporters_sources ts s jc Hs) as Hs'. split; [exact Hs'|]. split; [now apply supporters_In|]. pose proof (weight_nonneg ts a s Hs') as W0.
          destruct W0 as [W0|W0]; [exact W0|]. unfold raw, wstep in Ps. cbn [fst] in Ps. rewrite <- W0 in Ps. lra.
        - exfalso. assert (Z : rsum (raw ts a (x N)) (supporters ts jc) <= 0); [|lra]. rewrite <- (rsum_zero (supporters ts jc)). apply rsum_le. intros s Hs. apply Rnot_lt_le. intros L. apply No. eauto. }
      destruct PS as (s1 & Hs1 & Y1 & W1).
      assert (T1 : 0 < raw ts a z s1).
      { unfold raw, wstep. cbn [fst]. apply Rmult_lt_0_compat; [exact W1|]. unfold total_belief. apply (rsum_pos _ _ jc); [|now apply claims_of_In|lra].
        intros c Hcl. apply Z2. now apply (claims_of_claims ts s1). }
      assert (TJ : 0 < raw ts a z js) by (rewrite (FT s1 Hs1) in T1; pose proof (Z1 s1 Hs1); nra).
      assert (TN : forall s, In s (sources ts) -> 0 <= raw ts a z s) by (intros s Hs; rewrite (FT s Hs); apply Rmult_le_pos; [apply Z1, Hs|lra]).
      assert (UJ : 0 < total_trust ts (raw ts a z) jc).
      { destruct (claims_of_ne ts js Hjs) as [c Hcl]. assert (Uc : 0 < total_trust ts (raw ts a z) c).
        { unfold total_trust. apply (rsum_pos _ _ js); [|apply supporters_In; now apply claims_of_In in Hcl|exact TJ]. intros s Hs. apply TN. now apply (supporters_sources ts s c). }
        pose proof (claims_of_claims ts js c Hcl) as Hcc. rewrite (FU c Hcc) in Uc. pose proof (Z2 c Hcc). nra. }
      destruct (step_raw f ts a z conv_sa) as [E1 E2]. split; intros s Hs.
      - rewrite E1. unfold by_max. rewrite (rmax_is _ _ js Hjs); [rewrite (FT s Hs); field; lra|]. intros s' Hs'. rewrite (FT s' Hs'). pose proof (Z1 s' Hs'). nra.
      - rewrite E2. unfold by_max. rewrite (rmax_is _ _ jc Hjc); [rewrite (FU s Hs); field; lra|]. intros s' Hs'. rewrite (FU s' Hs'). pose proof (Z2 s' Hs'). nra.
    Qed.
    (** the distance of successive trust scores tends to 0 *)
    Lemma distances_vanish m : m <> BadMeasure -> Un_cv (fun k => real_distance m (sources ts) (fst (compared f ts a (x k))) (snd (compared f ts a (x k)))) 0.
    Proof.
      intros Hm. destruct limit_fixed as (z & Cs & _ & (s1 & Hs1 & E1) & _).
      assert (Q : (forall k, compared f ts a (x k) = (fst (x k), fst (x (1 + k)%nat))) \/ (forall k, compared f ts a (x k) = (fst (x (1 + k)%nat), fst (x k)))) by (destruct conv_sa as [->| ->]; [left|right]; reflexivity).
      assert (Sh : forall s, In s (sources ts) -> Un_cv (fun k => fst (x (1 + k)%nat) s) (fst z s)) by (intros s Hs; apply (cv_shift (fun k => fst (x k) s)); auto).
      assert (NZ : exists s, In s (sources ts) /\ fst z s <> 0) by (exists s1; split; [exact Hs1|lra]).
      destruct Q as [Q|Q].
      - apply (cv_ext (fun k => real_distance m (sources ts) (fst (x k)) (fst (x (1 + k)%nat)))); [intros k; now rewrite Q|].
        apply (distance_cv m (sources ts) (fun k => fst (x k)) (fun k => fst (x (1 + k)%nat)) (fst z)); auto. exact (src_ne ts NE).
      - apply (cv_ext (fun k => real_distance m (sources ts) (fst (x (1 + k)%nat)) (fst (x k)))); [intros k; now rewrite Q|].
        apply (distance_cv m (sources ts) (fun k => fst (x (1 + k)%nat)) (fun k => fst (x k)) (fst z)); auto. exact (src_ne ts NE).
    Qed.
  End Limit.

  (** The scores of Sums and AverageLog converge: there are limit scores (a fixed point of the published round, with a most
      trusted source and a most believed claim of score 1) such that, for any eps, every run of enough rounds - whatever
      the iterator - reports scores within eps of them. *)
  Theorem C60_converges a p x0 : converging a -> start ts a p = Some x0 -> ts <> [] ->
    exists z : rscores,
      (exists s, In s (sources ts) /\ fst z s = 1) /\ (exists c, In c (claims ts) /\ snd z c = 1) /\
      (let z' := match a with AverageLog => avlog_step ts z | _ => sums_step ts z end in
       (forall s, In s (sources ts) -> fst z' s = fst z s) /\ (forall c, In c (claims ts) -> snd z' c = snd z c)) /\
      forall eps, 0 < eps -> exists N, forall clock fuel it lg r o' k, run clock fuel (AObj a p it lg) d = (Ok r, o') -> r_iterations r = Some k -> (N <= k)%nat ->
        exists u, reports_real ts r u /\ (forall s, In s (sources ts) -> Rabs (fst u s - fst z s) < eps) /\ (forall c, In c (claims ts) -> Rabs (snd u c - snd z c) < eps).
  Proof.
    intros Hc E0 NE. assert (Hl : linear a) by (destruct Hc as [->|[-> _]]; unfold linear; auto). pose proof (pack_start_good ts a p x0 (linear_params a Hl) E0) as Hg.
    destruct (limit_fixed a x0 NE Hc Hg) as (z & Cs & Cc & Z1 & Z2 & F1 & F2). exists z. split; [exact Z1|]. split; [exact Z2|]. split.
    { destruct Hc as [->|[-> _]]; exact (conj F1 F2). }
    intros eps He.
    destruct (eventually_all (fun s k => Rabs (fst (rounds (step_of f ts a) x0 k) s - fst z s) < eps) (sources ts)) as [N1 K1]; [intros s Hs; exact (Cs s Hs eps He)|].
    destruct (eventually_all (fun c k => Rabs (snd (rounds (step_of f ts a) x0 k) c - snd z c) < eps) (claims ts)) as [N2 K2]; [intros c Hcl; exact (Cc c Hcl eps He)|].
    exists (N1 + N2)%nat. intros clock fuel it lg r o' k H Hk Hn.
    assert (Rp : reports_real ts r (rounds (step_of f ts a) x0 k)).
    { destruct Hc as [->|[-> H2]].
      - destruct (C33_sums_recurrence b f ts d Hb _ _ _ _ _ _ _ H) as (x0' & k' & E0' & Ek & Rp). rewrite Hk in Ek. injection Ek as <-.
        assert (x0' = x0) as -> by (change (start ts (@Sums (num XR)) p = Some x0') in E0'; rewrite E0 in E0'; now injection E0'). exact Rp.
      - destruct (C35_avlog_recurrence b f ts d Hb _ _ _ _ _ _ _ H2 H) as (x0' & k' & E0' & Ek & Rp & _). rewrite Hk in Ek. injection Ek as <-.
        assert (x0' = x0) as -> by (change (start ts (@AverageLog (num XR)) p = Some x0') in E0'; rewrite E0 in E0'; now injection E0'). exact Rp. }
    exists (rounds (step_of f ts a) x0 k). split; [exact Rp|]. split; intros; [apply K1|apply K2]; auto; lia.
  Qed.

  (** Iteration until convergence terminates: for every measure and every positive threshold there is N such that runs with
      an iteration limit above N return, after at most N + 1 rounds. *)
  Theorem C60_terminates a p m thr : converging a -> ts <> [] -> p <> BadPrior -> m <> BadMeasure -> 0 < thr ->
    exists N, forall clock fuel lim n cur lg, (Z.of_nat N < lim)%Z -> (N + 1 < fuel)%nat ->
      exists r o', run clock fuel (AObj a p (IConv m (Fin thr) lim n cur) lg) d = (Ok r, o') /\ r_iterations r = Some (Datatypes.S N).
  Proof.
    intros Hc NE Hp Hm Ht. assert (Hl : linear a) by (destruct Hc as [->|[-> _]]; unfold linear; auto).
    assert (Hd : data_ok ts a) by (destruct Hc as [->|[-> H]]; [exact I|exact H]).
    assert (E0 : exists x0, start ts a p = Some x0) by (destruct Hl as [->|[->| ->]]; cbn [start]; destruct p; cbn [prior_spec option_map]; eauto; congruence).
    destruct E0 as [x0 E0]. pose proof (pack_start_good ts a p x0 (linear_params a Hl) E0) as Hg.
    set (D k := let cc := compared f ts a (rounds (step_of f ts a) x0 k) in real_distance m (sources ts) (fst cc) (snd cc)).
    assert (Ex : exists k, D k < thr).
    { destruct (distances_vanish a x0 NE Hc Hg m Hm thr Ht) as [N K]. exists N. specialize (K N (le_n N)). unfold R_dist in K. rewrite Rminus_0_r in K. apply Rabs_def2 in K. exact (proj1 K). }
    assert (Least : exists k, D k < thr /\ forall j, (j < k)%nat -> ~ D j < thr).
    { destruct Ex as [k Hk]. revert Hk. induction k as [k IH] using (well_founded_induction lt_wf). intros Hk.
      destruct (Classical_Prop.classic (exists j, (j < k)%nat /\ D j < thr)) as [(j & Hj & Dj)|No]; [exact (IH j Hj Dj)|]. exists k. split; [exact Hk|]. intros j Hj Dj. apply No. eauto. }
    destruct Least as (N & DN & DL). exists N. intros clock fuel lim n cur lg Hlim Hf.
    rewrite (run_char clock ts (real_imp f) d R0 NE). pose proof (pack_start b f ts d Hb NE a p (linear_params a Hl)) as PS. rewrite E0 in PS. rewrite PS. cbn [option_map reset].
    pose proof (pack_cmp b f ts d Hb NE a x0 (linear_params a Hl) Hd Hg) as C.
    rewrite (it_loop_conv_stop (cmp1 a d (denote ts x0)) (cmp2 a d (denote ts x0)) (stops a d (denote ts x0)) m (Fin thr) lim fuel N (fun j => Fin (D j))).
    - rewrite (proj1 (pack_scores b f ts d Hb NE a x0 (linear_params a Hl) Hd Hg (Datatypes.S N))).
      destruct Hc as [->|[-> _]]; cbn [final]; eexists; eexists; (split; [reflexivity|]); reflexivity.
    - intros j. destruct (C j) as (-> & -> & _). exact (get_distance_real m (sources ts) _ _ (src_ne ts NE) Hm).
    - intros j. apply C.
    - exact Hlim.
    - intros j Hj. change (rltb (D j) thr = false). destruct (rltb_spec (D j) thr); [exfalso; now apply (DL j Hj)|reflexivity].
    - change (rltb (D N) thr = true). now apply rltb_true.
    - exact Hf.
  Qed.
End C60.

(** ** Non-vacuity: three sources that disagree about two variables *)
Module ConvExamples.
  Import ListNotations.
  Definition three : list (nat * nat * nat) := [(1, 0, 1); (1, 7, 1); (2, 0, 1); (2, 7, 2); (3, 0, 5)]%nat.
  Lemma three_builds : exists d : dataset nat nat nat XR, build false (real_imp None) three = Ok d.
  Proof. apply AlgExamples.strict_builds. unfold three, sv_pairs; cbn. repeat constructor; cbn; intuition congruence. Qed.
  Example three_conv : converging three Sums /\ converging three AverageLog.
  Proof. split; [left; reflexivity|right]. split; [reflexivity|]. exists 1%nat. split; [now left|]. cbn. lia. Qed.
  (** UnboundedSums with the default threshold, and Sums with the default convergence test, return *)
  Example three_runs : exists (d : dataset nat nat nat XR), build false (real_imp None) three = Ok d /\
    (exists fuel r, fst (run (fun _ => Fin 0) fuel (AObj UnboundedSums COUNT (mk_ord None) None) d) = Ok r) /\
    (exists lim fuel r, fst (run (fun _ => Fin 0) fuel (AObj Sums COUNT (mk_conv L2 None (Some lim)) None) d) = Ok r).
  Proof.
    destruct three_builds as [d Hd]. exists d. split; [exact Hd|]. split.
    - destruct (C59_terminates false None three d Hd UnboundedSums COUNT (or_intror (or_introl eq_refl)) ltac:(discriminate) ltac:(discriminate)) as [N K].
      destruct (K (fun _ => Fin 0) (N + 21)%nat 20%Z 0%nat 0%nat None ltac:(change (Z.to_nat 20) with 20%nat; lia)) as (r & o' & k & E & _). exists (N + 21)%nat, r.
      exact (f_equal fst E).
    - destruct (C60_terminates false None three d Hd Sums COUNT L2 (1 / 10000) (or_introl eq_refl) ltac:(discriminate) ltac:(discriminate) ltac:(discriminate) ltac:(lra)) as [N K].
      destruct (K (fun _ => Fin 0) (N + 2)%nat (Z.of_nat N + 1)%Z 0%nat None None ltac:(lia) ltac:(lia)) as (r & o' & E & _). exists (Z.of_nat N + 1)%Z, (N + 2)%nat, r.
      assert (L : @lit XR 1 10000 = Fin (1 / 10000)). { unfold lit. cbn [n_div XR n_ofZ]. rewrite xdiv_fin by lra. reflexivity. }
      unfold mk_conv. rewrite L. exact (f_equal fst E).
  Qed.
End ConvExamples.
