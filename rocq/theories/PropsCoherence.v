(** C76: coherence (exact arithmetic).  A claim whose supporters can be matched with supporters of another claim that are at least as
    trusted is at most as believed; the same for sources and their claims. *)
From Coq Require Import Reals Lra.
From Verif Require Import Base Num Sparse Spec SpecAlg Dataset DatasetProofs DatasetRep Iterators Algorithms Driver Distance Ranking Rounds
  AlgRep AlgRounds AlgTF PropsData PropsIter PropsRun PropsAlg AlgPack PropsOrd Local PropsSupport.
Local Open Scope R_scope.

(** two entries of a result, as real numbers *)
Definition entry_le (x y : option xr) : Prop := exists q q', x = Some (Fin q) /\ y = Some (Fin q') /\ q <= q'.
Definition entry_lt (x y : option xr) : Prop := exists q q', x = Some (Fin q) /\ y = Some (Fin q') /\ q < q'.
(** [m] matches the elements of [l] with distinct elements of [l'] *)
Definition matches {A} (m : A -> A) (l l' : list A) : Prop :=
  (forall x, In x l -> In (m x) l') /\ (forall x y, In x l -> In y l -> m x = m y -> x = y).

Lemma entry_le_fin x y : entry_le (Some (Fin x)) (Some (Fin y)) <-> x <= y.
Proof. split; [intros (q & q' & [= <-] & [= <-] & H); exact H|intros H; exists x, y; auto]. Qed.
Lemma entry_lt_fin x y : entry_lt (Some (Fin x)) (Some (Fin y)) <-> x < y.
Proof. split; [intros (q & q' & [= <-] & [= <-] & H); exact H|intros H; exists x, y; auto]. Qed.

Lemma map_NoDup_on {A B} (m : A -> B) l : NoDup l -> (forall x y, In x l -> In y l -> m x = m y -> x = y) -> NoDup (map m l).
Proof.
  induction 1 as [|x l Hx ND IH]; intros Hi; [constructor|]. cbn. constructor.
  - intros H. apply in_map_iff in H. destruct H as (y & E & Hy). apply Hx. rewrite <- (Hi y x); auto; [now right|now left].
  - apply IH. intros a b Ha Hb. apply Hi; now right.
Qed.
Lemma rsum_lt {A} (f g : A -> R) l x : (forall x, In x l -> f x <= g x) -> In x l -> f x < g x -> rsum f l < rsum g l.
Proof.
  intros H Hx L. pose proof (rsum_pos (fun y => g y - f y) l x) as P. assert (Q : 0 < rsum (fun y => g y - f y) l).
  { apply P; [intros y Hy; specialize (H y Hy); lra|exact Hx|lra]. }
  rewrite (rsum_ext (fun y => g y - f y) (fun y => g y + (-1) * f y)) in Q by (intros; lra). rewrite rsum_plus, rsum_scal in Q. lra.
Qed.
Lemma match_sum {A} {EA : Eqb A} (t : A -> R) (m : A -> A) l l' : NoDup l -> NoDup l' -> matches m l l' -> (forall x, In x l' -> 0 <= t x) ->
  (forall x, In x l -> t x <= t (m x)) -> rsum t l <= rsum t l' /\ ((exists x, In x l /\ t x < t (m x)) -> rsum t l < rsum t l').
Proof.
  intros ND ND' [M1 M2] P H.
  assert (Q : rsum (fun x => t (m x)) l <= rsum t l').
  { rewrite <- (rsum_map t m). apply rsum_incl; [now apply map_NoDup_on|exact ND'| |intros; lra|exact P].
    intros y Hy. apply in_map_iff in Hy. destruct Hy as (x & <- & Hx). auto. }
  split.
  - apply Rle_trans with (rsum (fun x => t (m x)) l); [now apply rsum_le|exact Q].
  - intros (x & Hx & L). apply Rlt_le_trans with (rsum (fun x => t (m x)) l); [now apply (rsum_lt _ _ _ x)|exact Q].
Qed.

Lemma by_max_le {A} (l : list A) (g : A -> R) x y : 0 < rmax g l -> (by_max l g x <= by_max l g y <-> g x <= g y).
Proof.
  intros P. unfold by_max, Rdiv. pose proof (Rinv_0_lt_compat _ P). split; intros H0; [now apply Rmult_le_reg_r with (/ rmax g l)|apply Rmult_le_compat_r; lra].
Qed.
Lemma downscale_le {A} (l : list A) (g : A -> R) x y : downscale l g x <= downscale l g y <-> g x <= g y.
Proof. unfold downscale. destruct (rltb _ _); lra. Qed.
Lemma rrank_lt {A} (g : A -> R) l x y : In x l -> g x < g y -> (rrank g l x < rrank g l y)%nat.
Proof.
  intros Hx H. unfold rrank. set (L := filter (fun y0 => rltb y0 (g x)) (map g l)).
  apply (NoDup_incl_length (l := g x :: nodup Req_EM_T L)).
  - constructor; [|apply NoDup_nodup]. intros Hi. apply nodup_In, filter_In in Hi. destruct Hi as [_ Hi]. destruct (rltb_spec (g x) (g x)); [lra|discriminate].
  - intros v [<-|Hv]; apply nodup_In, filter_In.
    + split; [now apply in_map|now apply rltb_true].
    + apply nodup_In, filter_In in Hv. destruct Hv as [Hv Lv]. split; [exact Hv|]. destruct (rltb_spec v (g x)); [|discriminate]. apply rltb_true. lra.
Qed.
Lemma rrank_le {A} (g : A -> R) l x y : In y l -> (INR (rrank g l x) <= INR (rrank g l y) <-> g x <= g y).
Proof.
  intros Hy. split; intros H; [|apply le_INR; unfold rrank; apply NoDup_incl_length; [apply NoDup_nodup|]].
  - apply Rnot_lt_le. intros L. apply (rrank_lt g l y x Hy) in L. apply lt_INR in L. lra.
  - intros v Hv. apply nodup_In, filter_In in Hv. apply nodup_In, filter_In. destruct Hv as [Hv L]. split; [exact Hv|].
    destruct (rltb_spec v (g x)); [|discriminate]. apply rltb_true. lra.
Qed.

Lemma exists_or_none {A} (l : list A) (P : A -> Prop) (D : forall x, {P x} + {~ P x}) : (exists x, In x l /\ P x) \/ (forall x, In x l -> ~ P x).
Proof.
  destruct (Exists_dec P l D) as [E|E]; [left; apply Exists_exists in E; firstorder|right; intros x Hx Px; apply E, Exists_exists; eauto].
Qed.

Section Coherence.
  Context {S V W : Type} {ES : Eqb S} {EV : Eqb V} {EW : Eqb W}.
  Notation data := (dataset S V W XR).
  Notation claim := (V * W)%type.
  Notation rscores := (@rscores S V W).
  Variables (b : bool) (f : option (V -> W -> W -> option R)) (ts : list (S * V * W)) (d : data).
  Hypothesis Hb : build b (real_imp f) ts = Ok d.
  Let R0 : ds_rep ts (real_imp f) d := build_rep _ _ _ _ Hb.

  (** algorithms whose last step adds up the trust of the supporters *)
  Definition additive (a : alg XR) : Prop :=
    match a with Sums | AverageLog | UnboundedSums => True | CRH (Fin eps) => 0 < eps | _ => False end.
  Lemma additive_supportive a : additive a -> supportive f a.
  Proof. destruct a as [| |[]|[]|[] [] []|[]|]; cbn; tauto. Qed.
  (** the trust before normalisation *)
  Definition raw (a : alg XR) (x : rscores) : S -> R :=
    match a with
    | AverageLog => avlog_trust ts (snd x)
    | CRH (Fin eps) => fst (crh_step ts eps x)
    | _ => total_belief ts (snd x)
    end.
  Lemma raw_nonneg a x : ts <> [] -> additive a -> ready ts a x -> forall s, In s (sources ts) -> 0 <= raw a x s.
  Proof.
    intros NE Ha [G H] s Hs. destruct a as [| |[]|[]|[] [] []|[]|]; cbn in Ha; try tauto; cbn [raw good] in *.
    - left. now apply total_belief_pos.
    - apply avlog_trust_nonneg; [apply G|exact Hs].
    - pose proof (crh_trust_ge ts r x s Ha Hs). lra.
    - apply rsum_nonneg. intros c Hc. apply H. now apply claims_of_claims in Hc.
  Qed.
  Lemma trust_order a x s s' : ts <> [] -> additive a -> data_ok ts a -> ready ts a x -> In s (sources ts) -> In s' (sources ts) ->
    (fst (reported ts a (step_of f ts a x)) s <= fst (reported ts a (step_of f ts a x)) s' <-> raw a x s <= raw a x s').
  Proof.
    intros NE Ha Hd [G H] Hs Hs'. destruct a as [| |[]|[]|[] [] []|[]|]; cbn in Ha; try tauto; cbn [raw good step_of reported data_ok] in *.
    - cbn [fst sums_step]. apply by_max_le. apply rmax_src_pos; [exact NE|]. intros; now apply total_belief_pos.
    - destruct (avlog_round ts (real_imp f) d R0 NE x Hd G) as (_ & _ & Pm & _). exact (by_max_le (sources ts) (avlog_trust ts (snd x)) s s' Pm).
    - cbn [ranks fst]. rewrite rrank_le by assumption. cbn [fst usums_step]. apply downscale_le.
  Qed.
  Lemma belief_order a x c c' : ts <> [] -> additive a -> data_ok ts a -> ready ts a x -> In c (claims ts) -> In c' (claims ts) ->
    (snd (reported ts a (step_of f ts a x)) c <= snd (reported ts a (step_of f ts a x)) c' <-> total_trust ts (raw a x) c <= total_trust ts (raw a x) c').
  Proof.
    intros NE Ha Hd [G H] Hc Hc'. destruct a as [| |[]|[]|[] [] []|[]|]; cbn in Ha; try tauto; cbn [raw good step_of reported data_ok] in *.
    - cbn [snd sums_step]. apply by_max_le. apply rmax_cl_pos; [exact NE|]. intros q Hq. apply total_trust_pos; [|exact Hq]. intros; now apply total_belief_pos.
    - destruct (avlog_round ts (real_imp f) d R0 NE x Hd G) as (_ & _ & _ & Pm). exact (by_max_le (claims ts) (total_trust ts (avlog_trust ts (snd x))) c c' Pm).
    - pose proof (crh_total_pos ts NE r x Ha) as TP.
      change (total_trust ts (fst (crh_step ts r x)) c / rsum (fst (crh_step ts r x)) (sources ts) <= total_trust ts (fst (crh_step ts r x)) c' / rsum (fst (crh_step ts r x)) (sources ts) <->
        total_trust ts (fst (crh_step ts r x)) c <= total_trust ts (fst (crh_step ts r x)) c').
      set (u := total_trust ts (fst (crh_step ts r x)) c). set (v := total_trust ts (fst (crh_step ts r x)) c'). unfold Rdiv. pose proof (Rinv_0_lt_compat _ TP).
      split; intros Q; [now apply Rmult_le_reg_r with (/ rsum (fst (crh_step ts r x)) (sources ts))|apply Rmult_le_compat_r; lra].
    - cbn [ranks snd]. rewrite rrank_le by assumption. cbn [snd usums_step]. apply downscale_le.
  Qed.

  (** Sums, AverageLog, CRH and UnboundedSums: if the supporters of [c] can be matched with different supporters of [c'], each at least as
      trusted (according to the result), then [c] is at most as believed as [c'] (according to the same result); and less if
      one of these supporters is less trusted. *)
  Theorem C76_claims clock fuel a p it lg r o' k c c' m : additive a -> data_ok ts a ->
    run clock fuel (AObj a p it lg) d = (Ok r, o') -> r_iterations r = Some k -> k <> 0%nat ->
    In c (claims ts) -> In c' (claims ts) -> matches m (supporters ts c) (supporters ts c') ->
    (forall s, In s (supporters ts c) -> entry_le (trust_of r s) (trust_of r (m s))) ->
    entry_le (belief_of r c) (belief_of r c') /\
    ((exists s, In s (supporters ts c) /\ entry_lt (trust_of r s) (trust_of r (m s))) -> entry_lt (belief_of r c) (belief_of r c')).
  Proof.
    intros Ha Hd H Hk Hk0 Hc Hc' M T. pose proof (additive_supportive a Ha) as Hs.
    destruct (pack_run b f ts d Hb clock fuel a p it lg r o' k (supportive_ok f a Hs) Hd H Hk) as (NE & x0 & E0 & Rp).
    destruct k as [|k]; [congruence|]. cbn [rounds] in Rp. pose proof (rounds_ready b f ts d Hb a p x0 k NE Hs Hd E0) as Rd.
    set (x := rounds (step_of f ts a) x0 k) in *. clearbody x.
    set (y := reported ts a (step_of f ts a x)) in *.
    assert (Eb : forall q, In q (claims ts) -> belief_of r q = Some (Fin (snd y q))) by (intros q Hq; exact (reports_belief ts r _ q Rp Hq)).
    assert (Et : forall q, In q (sources ts) -> trust_of r q = Some (Fin (fst y q))) by (intros q Hq; exact (reports_trust ts r _ q Rp Hq)).
    rewrite (Eb c Hc), (Eb c' Hc'), entry_le_fin, entry_lt_fin.
    assert (Src : forall q s, In s (supporters ts q) -> In s (sources ts)) by (intros q s Q; apply filter_In in Q; tauto).
    assert (Tr : forall s, In s (supporters ts c) -> raw a x s <= raw a x (m s)).
    { intros s Q. specialize (T s Q). pose proof (Src _ _ Q) as Q1. pose proof (Src _ _ (proj1 M s Q)) as Q2.
      rewrite (Et s Q1), (Et (m s) Q2), entry_le_fin in T. now apply trust_order in T. }
    destruct (match_sum (raw a x) m (supporters ts c) (supporters ts c')) as [L1 L2]; [apply NoDup_filter, sources_NoDup|apply NoDup_filter, sources_NoDup|exact M| |exact Tr|].
    { intros s Q. apply raw_nonneg; auto. eapply Src; eauto. }
    split; [apply belief_order; auto|]. intros (s & Q & Ls). apply Rnot_le_lt. intros Le. apply belief_order in Le; auto.
    pose proof (Src _ _ Q) as Q1. pose proof (Src _ _ (proj1 M s Q)) as Q2.
    rewrite (Et s Q1), (Et (m s) Q2), entry_lt_fin in Ls.
    assert (Lr : raw a x s < raw a x (m s)).
    { apply Rnot_le_lt. intros Le2. apply (trust_order a x (m s) s NE Ha Hd Rd Q2 Q1) in Le2. change (fst y (m s) <= fst y s) in Le2. lra. }
    unfold total_trust in Le. specialize (L2 (ex_intro _ s (conj Q Lr))). lra.
  Qed.

  (** TruthFinder: the trust of a source is the average of the beliefs of its claims, according to the same result. *)
  Theorem C76_truthfinder clock fuel rho gamma t0 p it lg r o' k s : t0 < 1 ->
    run clock fuel (AObj (TruthFinder (Fin rho) (Fin gamma) (Fin t0)) p it lg) d = (Ok r, o') -> r_iterations r = Some k -> k <> 0%nat ->
    In s (sources ts) ->
    (exists t g, trust_of r s = Some (Fin t) /\ (forall c, In c (claims_of ts s) -> belief_of r c = Some (Fin (g c))) /\
       t * INR (length (claims_of ts s)) = rsum g (claims_of ts s)) /\
    (exists c, In c (claims_of ts s) /\ entry_le (trust_of r s) (belief_of r c)) /\
    (exists c, In c (claims_of ts s) /\ entry_le (belief_of r c) (trust_of r s)).
  Proof.
    intros Ht H Hk Hk0 Hs.
    destruct (pack_run b f ts d Hb clock fuel (TruthFinder (Fin rho) (Fin gamma) (Fin t0)) p it lg r o' k Ht I H Hk) as (NE & x0 & E0 & Rp).
    destruct k as [|k]; [congruence|]. cbn [rounds reported] in Rp. set (x := rounds _ x0 k) in *. clearbody x.
    set (y := step_of f ts (TruthFinder (Fin rho) (Fin gamma) (Fin t0)) x) in *.
    assert (Et : fst y s * INR (length (claims_of ts s)) = rsum (snd y) (claims_of ts s)).
    { subst y. cbn [step_of tf_step fst snd]. unfold total_belief, n_claims. field. pose proof (n_claims_pos ts s Hs) as P. unfold n_claims in P. lra. }
    assert (E1 : trust_of r s = Some (Fin (fst y s))) by exact (reports_trust ts r _ s Rp Hs).
    assert (E2 : forall c, In c (claims_of ts s) -> belief_of r c = Some (Fin (snd y c))) by (intros c Hc; apply (reports_belief ts r y c Rp); now apply claims_of_claims in Hc).
    clearbody y. pose proof (n_claims_pos ts s Hs) as P. unfold n_claims in P.
    assert (NEc : exists c, In c (claims_of ts s)) by (destruct (claims_of ts s) as [|c l]; [cbn in P; lra|exists c; now left]).
    split; [exists (fst y s), (snd y); auto|]. split.
    - destruct (exists_or_none (claims_of ts s) (fun c => fst y s <= snd y c) (fun c => Rle_dec _ _)) as [(c & Hc & L)|N].
      + exists c. split; [exact Hc|]. rewrite E1, (E2 c Hc). now apply entry_le_fin.
      + exfalso. destruct NEc as [c Hc]. assert (rsum (snd y) (claims_of ts s) < rsum (fun _ => fst y s) (claims_of ts s)).
        { apply (rsum_lt _ _ _ c); [|exact Hc|]; intros; specialize (N _ ltac:(eassumption)); lra. }
        rewrite rsum_const in H0. lra.
    - destruct (exists_or_none (claims_of ts s) (fun c => snd y c <= fst y s) (fun c => Rle_dec _ _)) as [(c & Hc & L)|N].
      + exists c. split; [exact Hc|]. rewrite E1, (E2 c Hc). now apply entry_le_fin.
      + exfalso. destruct NEc as [c Hc]. assert (rsum (fun _ => fst y s) (claims_of ts s) < rsum (snd y) (claims_of ts s)).
        { apply (rsum_lt _ _ _ c); [|exact Hc|]; intros; specialize (N _ ltac:(eassumption)); lra. }
        rewrite rsum_const in H0. lra.
  Qed.

  (** Investment: the same, when the matched supporters make at most as many claims (a source divides its trust among its claims). *)
  Theorem C76_investment clock fuel g p it lg r o' k c c' m : 0 <= g ->
    run clock fuel (AObj (Investment (Fin g)) p it lg) d = (Ok r, o') -> r_iterations r = Some k -> k <> 0%nat ->
    In c (claims ts) -> In c' (claims ts) -> matches m (supporters ts c) (supporters ts c') ->
    (forall s, In s (supporters ts c) -> entry_le (trust_of r s) (trust_of r (m s)) /\ (length (claims_of ts (m s)) <= length (claims_of ts s))%nat) ->
    entry_le (belief_of r c) (belief_of r c').
  Proof.
    intros Hg H Hk Hk0 Hc Hc' M T.
    destruct (pack_run b f ts d Hb clock fuel (Investment (Fin g)) p it lg r o' k I I H Hk) as (NE & x0 & E0 & Rp).
    destruct k as [|k]; [congruence|]. cbn [rounds reported] in Rp. pose proof (rounds_ready b f ts d Hb (Investment (Fin g)) p x0 k NE Hg I E0) as [G _].
    set (x := rounds _ x0 k) in *. clearbody x. cbn [good] in G. set (y := step_of f ts (Investment (Fin g)) x) in *.
    assert (Eb : forall q, In q (claims ts) -> belief_of r q = Some (Fin (snd y q))) by (intros q Hq; exact (reports_belief ts r _ q Rp Hq)).
    assert (Et : forall q, In q (sources ts) -> trust_of r q = Some (Fin (fst y q))) by (intros q Hq; exact (reports_trust ts r _ q Rp Hq)).
    rewrite (Eb c Hc), (Eb c' Hc'), entry_le_fin.
    assert (Pr : forall s, In s (sources ts) -> 0 < returned ts x s) by (intros; now apply returned_pos).
    assert (Src : forall q s, In s (supporters ts q) -> In s (sources ts)) by (intros q s Q; apply filter_In in Q; tauto).
    subst y. cbn [step_of inv_step snd fst] in *. apply by_max_mono; [apply (rmax_pos _ _ c Hc), Rpower_pos|].
    apply Rle_Rpower_l; [exact Hg|]. split; [now apply invested_pos|]. unfold invested, total_trust.
    apply (match_sum (invests ts (returned ts x)) m); [apply NoDup_filter, sources_NoDup|apply NoDup_filter, sources_NoDup|exact M| |].
    - intros s Q. left. apply invests_pos; [exact Pr|]. eapply Src; eauto.
    - intros s Q. destruct (T s Q) as [T1 T2]. pose proof (Src _ _ Q) as Q1. pose proof (Src _ _ (proj1 M s Q)) as Q2.
      rewrite (Et s Q1), (Et (m s) Q2), entry_le_fin in T1. apply by_max_le in T1; [|now apply rmax_src_pos].
      unfold invests. pose proof (n_claims_pos ts s Q1) as P1. pose proof (n_claims_pos ts (m s) Q2) as P2.
      assert (L : n_claims ts (m s) <= n_claims ts s) by (unfold n_claims; now apply le_INR). pose proof (Pr _ Q1) as P3.
      unfold Rdiv. apply Rmult_le_compat; [lra|left; now apply Rinv_0_lt_compat|exact T1|now apply Rinv_le_contravar].
  Qed.

  (** Sums, from one round to the next: a source whose claims can be matched with different claims of another one, each at least as
      believed after n rounds, is at most as trusted after n+1 rounds. *)
  Theorem C76_sources clock fuel p n st lg r o' clock' fuel' st' lg' r' o'' s s' m : (0 <= n)%Z ->
    run clock fuel (AObj Sums p (IFixed n st) lg) d = (Ok r, o') ->
    run clock' fuel' (AObj Sums p (IFixed (n + 1) st') lg') d = (Ok r', o'') ->
    In s (sources ts) -> In s' (sources ts) -> matches m (claims_of ts s) (claims_of ts s') ->
    (forall c, In c (claims_of ts s) -> entry_le (belief_of r c) (belief_of r (m c))) ->
    entry_le (trust_of r' s) (trust_of r' s') /\
    ((exists c, In c (claims_of ts s) /\ entry_lt (belief_of r c) (belief_of r (m c))) -> entry_lt (trust_of r' s) (trust_of r' s')).
  Proof.
    intros Hn H H' Hs Hs' M T.
    destruct (C28_fixed b (real_imp f) ts d Hb clock fuel Sums p n st lg r o' H) as (k & Hk & _ & Ek & _).
    destruct (C28_fixed b (real_imp f) ts d Hb clock' fuel' Sums p (n + 1) st' lg' r' o'' H') as (k' & Hk' & _ & Ek' & _).
    assert (Es : k' = Datatypes.S k) by lia. clear Ek Ek'. subst k'.
    destruct (pack_run b f ts d Hb clock fuel Sums p _ lg r o' k I I H Hk) as (NE & x0 & E0 & Rp).
    destruct (pack_run b f ts d Hb clock' fuel' Sums p _ lg' r' o'' _ I I H' Hk') as (_ & x0' & E0' & Rp').
    assert (x0' = x0) by congruence. subst x0'. cbn [rounds reported step_of] in Rp, Rp'.
    pose proof (rounds_ready b f ts d Hb Sums p x0 k NE I I E0) as [G _]. cbn [step_of good] in G.
    set (x := rounds _ x0 k) in *. clearbody x.
    assert (Eb : forall q, In q (claims ts) -> belief_of r q = Some (Fin (snd x q))) by (intros q Hq; exact (reports_belief ts r _ q Rp Hq)).
    assert (Et : forall q, In q (sources ts) -> trust_of r' q = Some (Fin (fst (sums_step ts x) q))) by (intros q Hq; exact (reports_trust ts r' _ q Rp' Hq)).
    rewrite (Et s Hs), (Et s' Hs'), entry_le_fin, entry_lt_fin.
    assert (Cl : forall q c, In c (claims_of ts q) -> In c (claims ts)) by (intros q c Q; now apply claims_of_claims in Q).
    assert (Le : forall c, In c (claims_of ts s) -> snd x c <= snd x (m c)).
    { intros c Q. specialize (T c Q). rewrite (Eb c (Cl _ _ Q)), (Eb (m c) (Cl _ _ (proj1 M c Q))), entry_le_fin in T. exact T. }
    destruct (match_sum (snd x) m (claims_of ts s) (claims_of ts s')) as [L1 L2]; [apply NoDup_filter, claims_NoDup|apply NoDup_filter, claims_NoDup|exact M| |exact Le|].
    { intros c Q. left. apply G. exact (Cl _ _ Q). }
    assert (P : 0 < rmax (total_belief ts (snd x)) (sources ts)) by (apply rmax_src_pos; [exact NE|]; intros; now apply total_belief_pos).
    cbn [sums_step fst]. split; [now apply by_max_le|]. intros (c & Q & L). apply Rnot_le_lt. intros Le2. apply by_max_le in Le2; [|exact P].
    rewrite (Eb c (Cl _ _ Q)), (Eb (m c) (Cl _ _ (proj1 M c Q))), entry_lt_fin in L. unfold total_belief in Le2. specialize (L2 (ex_intro _ c (conj Q L))). lra.
  Qed.
End Coherence.

(** ** Non-vacuity: source 1 says x = 1 and y = 1, source 2 says z = 1; after one round of Sums source 2 is less trusted, so
    z = 1 is less believed than x = 1, so source 2 is less trusted after another round. *)
Module CoherenceExamples.
  Import AlgExamples.
  Definition co : list (nat * nat * nat) := [(1, 0, 1); (1, 5, 1); (2, 7, 1)]%nat.
  Lemma co_builds : exists d : dataset nat nat nat XR, build false (real_imp None) co = Ok d.
  Proof. apply strict_builds. unfold co, sv_pairs; cbn. repeat constructor; cbn; intuition congruence. Qed.
  Definition to1 (s : nat) : nat := 1%nat.
  Definition toX (c : nat * nat) : nat * nat := (0, 1)%nat.
  Example matching : matches to1 (supporters co (7, 1)%nat) (supporters co (0, 1)%nat) /\ matches toX (claims_of co 2%nat) (claims_of co 1%nat).
  Proof.
    split; (split; [intros x Hx; cbn in Hx |- *; intuition auto|]); intros x y Hx Hy _; cbn in Hx, Hy; destruct Hx as [<-|[]], Hy as [<-|[]]; reflexivity.
  Qed.
  Lemma co_max_s (g : nat -> R) : rmax g (sources co) = Rmax (g 1%nat) (g 2%nat).
  Proof. reflexivity. Qed.
  Example conclusion : exists d r o', build false (real_imp None) co = Ok d /\
    run (fun _ => Fin 0) 3 (AObj Sums FIXED (IFixed 1 0) None) d = (Ok r, o') /\ r_iterations r = Some 1%nat /\
    (forall s, In s (supporters co (7, 1)%nat) -> entry_le (trust_of r s) (trust_of r (to1 s))) /\
    entry_lt (trust_of r 2%nat) (trust_of r (to1 2%nat)) /\
    entry_lt (belief_of r (7, 1)%nat) (belief_of r (0, 1)%nat) /\
    forall r' o'', run (fun _ => Fin 0) 3 (AObj Sums FIXED (IFixed (1 + 1) 0) None) d = (Ok r', o'') -> entry_lt (trust_of r' 2%nat) (trust_of r' 1%nat).
  Proof.
    destruct co_builds as [d E]. assert (NE : co <> []) by discriminate. assert (Ha : Sums <> UnboundedSums :> alg XR) by discriminate.
    assert (NP : FIXED <> BadPrior) by discriminate. assert (L : (Z.to_nat 1 < 3)%nat) by (cbn; lia).
    destruct (C28_fixed_returns false _ co d E (fun _ => Fin 0) 3 Sums FIXED 1 0 None NE Ha NP L) as [r Hr].
    destruct (run (fun _ => Fin 0) 3 (AObj Sums FIXED (IFixed 1 0) None) d) as [q o'] eqn:Er. cbn [fst] in Hr. subst q.
    destruct (C28_fixed false _ co d E (fun _ => Fin 0) 3 Sums FIXED 1 0 None r o' Er) as (k & Hk & _ & Ek & _). change (Z.to_nat 1) with 1%nat in Ek. subst k.
    destruct (pack_run false None co d E (fun _ => Fin 0) 3 Sums FIXED (IFixed 1 0) None r o' 1 I I Er Hk) as (_ & x0 & E0 & Rp).
    cbn [start prior_spec option_map] in E0. injection E0 as <-. cbn [rounds reported step_of] in Rp.
    assert (T1 : trust_of r 1%nat = Some (Fin 1)).
    { pose proof (reports_trust co r _ 1%nat Rp (or_introl eq_refl)) as Q. refine (eq_trans Q _). do 2 f_equal. cbn [sums_step fst snd]. unfold by_max. rewrite co_max_s. unfold total_belief. cbn.
      rewrite Rmax_left by lra. lra. }
    assert (T2 : trust_of r 2%nat = Some (Fin (1/2))).
    { pose proof (reports_trust co r _ 2%nat Rp (or_intror (or_introl eq_refl))) as Q. refine (eq_trans Q _). do 2 f_equal. cbn [sums_step fst snd]. unfold by_max. rewrite co_max_s. unfold total_belief. cbn.
      rewrite Rmax_left by lra. lra. }
    assert (Le : forall s, In s (supporters co (7, 1)%nat) -> entry_le (trust_of r s) (trust_of r (to1 s))).
    { intros s Hs. assert (s = 2%nat) as -> by (cbn in Hs; intuition auto). exists (1/2), 1. split; [exact T2|]. split; [exact T1|lra]. }
    assert (Lt : entry_lt (trust_of r 2%nat) (trust_of r (to1 2%nat))).
    { exists (1/2), 1. split; [exact T2|]. split; [exact T1|lra]. }
    assert (K : 1%nat <> 0%nat) by discriminate.
    assert (C1 : In (7, 1)%nat (claims co)) by (cbn; tauto). assert (C2 : In (0, 1)%nat (claims co)) by (cbn; tauto).
    destruct (C76_claims false None co d E _ _ Sums FIXED _ _ _ _ 1 (7, 1)%nat (0, 1)%nat to1 I I Er Hk K C1 C2 (proj1 matching) Le) as [_ B].
    assert (B' : entry_lt (belief_of r (7, 1)%nat) (belief_of r (0, 1)%nat)).
    { apply B. exists 2%nat. split; [cbn; tauto|exact Lt]. }
    exists d, r, o'. split; [exact E|]. split; [exact Er|]. split; [exact Hk|]. split; [exact Le|]. split; [exact Lt|]. split; [exact B'|].
    intros r' o'' Er'. assert (Z : (0 <= 1)%Z) by lia.
    assert (Lc : forall c, In c (claims_of co 2%nat) -> entry_le (belief_of r c) (belief_of r (toX c))).
    { intros c Hc. assert (c = (7, 1)%nat) as -> by (cbn in Hc; intuition auto). destruct B' as (q & q' & Q1 & Q2 & Q3). exists q, q'. split; [exact Q1|]. split; [exact Q2|lra]. }
    destruct (C76_sources false None co d E _ _ FIXED 1 0 None r o' _ _ 0 None r' o'' 2%nat 1%nat toX Z Er Er' (or_intror (or_introl eq_refl)) (or_introl eq_refl) (proj2 matching) Lc) as [_ B2].
    apply B2. exists (7, 1)%nat. split; [cbn; tauto|exact B'].
  Qed.
  (* TruthFinder and Investment return on vs2 (AlgExamples.runs), with at least one round each (C28); in vs2 the claims (0,2) and (7,1) have the
     same supporter, so the identity is a matching *)
  Example identity_matches : matches (fun s : nat => s) (supporters vs2 (0, 2)%nat) (supporters vs2 (7, 1)%nat).
  Proof. split; [intros x; cbn; tauto|auto]. Qed.
End CoherenceExamples.
