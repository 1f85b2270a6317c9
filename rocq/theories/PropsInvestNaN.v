(** C96: with g = 2 Investment (and, after more rounds, PooledInvestment) turns three ordinary triples into NaN scores. *)
From Coq Require Import Reals Lra.
From Flocq Require Import Core IEEE754.BinarySingleNaN.
From Verif Require Import Base Num Sparse Spec SpecAlg Dataset DatasetProofs DatasetRep Iterators Algorithms Driver Rounds
  AlgRep AlgRounds PropsData PropsIter PropsRun PropsAlg Float PropsFloat PropsVote64 PropsTF64 PropsAccuracy PropsAvlog64 PropsCrh64 PropsInvest64.

(** The C library: pow(x, 2.0) is x * x (rounded once; this is what numpy's ** computes for the exponent 2); its other values, the
    logarithm and the exponential are arbitrary. *)
Definition squaring (ln exp : b64 -> b64) (pw : b64 -> b64 -> b64) : libm :=
  Libm ln exp (fun x y => match Bcompare y (ofZ64 2) with Some Eq => Bmult mode_NE x x | _ => pw x y end).

(** Sources 1 and 2 disagree about variable 1; source 3 is alone on variable 2. *)
Definition disagreement : list (nat * nat * nat) := [(1,1,1); (2,1,2); (3,2,1)]%nat.

Section C96.
  Variables (ln exp : b64 -> b64) (pw : b64 -> b64 -> b64).
  Notation L := (squaring ln exp pw).
  Notation F := (B64 L).
  Notation data := (dataset nat nat nat F).
  Notation two := (ofZ64 2 : F).
  Notation nan3 := ([nan64; nan64; nan64] : vec F).
  Definition all_nan (v : list b64) : bool := forallb is_nan v && Nat.eqb (length v) 3.
  Lemma all_nan_eq v : all_nan v = true -> v = nan3.
  Proof.
    unfold all_nan. intros H. apply andb_true_iff in H. destruct H as (H1 & H2). apply Nat.eqb_eq in H2. rewrite forallb_forall in H1.
    assert (G : forall x, In x v -> x = nan64) by (intros x Hx; apply H1 in Hx; destruct x; try discriminate; reflexivity). clear H1.
    destruct v as [|x1 [|x2 [|x3 [|]]]]; try discriminate. rewrite (G x1), (G x2), (G x3); cbn; auto.
  Qed.
  (* rebuild the doubles from their bits: this drops the proof terms that evaluation would otherwise carry along *)
  Definition fresh (x : b64) : b64 := match Bool.bool_dec (SpecFloat.valid_binary 53 1024 (B2SF x)) true with left H => SF2B _ H | right _ => x end.
  Lemma fresh_eq x : fresh x = x.
  Proof. unfold fresh. destruct (Bool.bool_dec _ _) as [H|]; [|reflexivity]. apply SF2B_B2SF. Qed.
  Definition fresh2 (x : vec F * vec F) : vec F * vec F := (map fresh (fst x), map fresh (snd x)).
  Lemma fresh2_eq x : fresh2 x = x.
  Proof. destruct x as [u v]. unfold fresh2. cbn [fst snd]. assert (G : forall l, map fresh l = l) by (intros l; rewrite <- (map_id l) at 2; apply map_ext, fresh_eq). now rewrite !G. Qed.
  (* one round from x, or None if it stops or fails *)
  Definition next (a : alg F) (d : data) (x : vec F * vec F) : option (vec F * vec F) := match round (F:=F) a d x with UNext _ _ y => Some y | _ => None end.
  Fixpoint go (a : alg F) (d : data) (x0 : vec F * vec F) (k : nat) : option (vec F * vec F) :=
    match k with O => Some x0 | Datatypes.S k => match go a d x0 k with Some y => next a d (fresh2 y) | None => None end end.
  Definition nan_state (x : option (vec F * vec F)) : bool := match x with Some x => all_nan (fst x) && all_nan (snd x) | None => false end.
  Definition check (a : alg F) (p : prior) (k : nat) : bool :=
    match build (F:=F) false None disagreement with
    | Ok d => match init (F:=F) a p d with Some x0 => nan_state (go a d x0 k) && nan_state (next a d (nan3, nan3)) | None => false end
    | Err _ => false end.
  Lemma go_scores a d x0 : forall k y, go a d x0 k = Some y -> scores (F:=F) a d x0 k = y /\ forall j, (j < k)%nat -> stops (F:=F) a d x0 j = false.
  Proof.
    induction k as [|k IH]; intros y H; [cbn in H; injection H as <-; split; [reflexivity|lia]|].
    cbn [go] in H. destruct (go a d x0 k) as [z|]; [|discriminate]. destruct (IH z eq_refl) as (Es & Hs). rewrite fresh2_eq in H. unfold next in H.
    destruct (round (F:=F) a d z) as [|e|u v x] eqn:Er; try discriminate. injection H as ->. split.
    - cbn [scores]. rewrite Es, Er. reflexivity.
    - intros j Hj. destruct (Nat.eq_dec j k) as [->|]; [|apply Hs; lia]. unfold stops. rewrite Es, Er. reflexivity.
  Qed.
  Lemma nan_state_eq x : nan_state x = true -> x = Some (nan3, nan3).
  Proof.
    destruct x as [[u v]|]; [|discriminate]. cbn. intros H. apply andb_true_iff in H. destruct H as (H1 & H2). apply all_nan_eq in H1. apply all_nan_eq in H2. now subst.
  Qed.
  Lemma checked a p k d x0 : check a p k = true -> build (F:=F) false None disagreement = Ok d -> init (F:=F) a p d = Some x0 ->
    forall n, ((k <= n)%nat -> scores (F:=F) a d x0 n = (nan3, nan3)) /\ stops (F:=F) a d x0 n = false.
  Proof.
    intros H E0 E1. unfold check in H. rewrite E0, E1 in H. apply andb_true_iff in H. destruct H as (H1 & H2). apply nan_state_eq in H1. apply nan_state_eq in H2.
    destruct (go_scores a d x0 k _ H1) as (Es & Hs). unfold next in H2. destruct (round (F:=F) a d (nan3, nan3)) as [|e|u v x] eqn:Er; try discriminate. injection H2 as ->.
    assert (G : forall m, scores (F:=F) a d x0 (k + m) = (nan3, nan3)).
    { induction m as [|m IH]; [rewrite Nat.add_0_r; exact Es|]. rewrite Nat.add_succ_r. cbn [scores]. rewrite IH, Er. reflexivity. }
    assert (G' : forall n, (k <= n)%nat -> scores (F:=F) a d x0 n = (nan3, nan3)) by (intros n Hn; replace n with (k + (n - k))%nat by lia; apply G).
    intros n. split; [apply G'|]. destruct (Nat.lt_ge_cases n k) as [|Hn]; [now apply Hs|]. unfold stops. rewrite (G' n Hn), Er. reflexivity.
  Qed.
  (** every score of the result is NaN *)
  Definition only_nan (r : result nat nat nat b64) : Prop :=
    (forall s, In s (sources disagreement) -> trust_of r s = Some nan64) /\ (forall c, In c (claims disagreement) -> belief_of r c = Some nan64).
  Lemma checked_run a p k : check a p k = true -> a <> UnboundedSums -> p <> BadPrior -> exists d, build (F:=F) false None disagreement = Ok d /\
    forall clock fuel n st lg, (Z.of_nat k <= n)%Z -> (Z.to_nat n < fuel)%nat ->
      exists r, fst (run (F:=F) clock fuel (AObj a p (IFixed n st) lg) d) = Ok r /\ r_iterations r = Some (Z.to_nat n) /\ only_nan r.
  Proof.
    intros H Ha Hp. destruct (build (F:=F) false None disagreement) as [d|e] eqn:E0; [|exfalso; unfold check in H; rewrite E0 in H; discriminate].
    exists d. split; [reflexivity|]. intros clock fuel n st lg Hn Hf.
    assert (NE : disagreement <> []) by discriminate.
    destruct (C28_fixed_returns false None disagreement d E0 clock fuel a p n st lg NE Ha Hp Hf) as (r & Hr).
    destruct (run (F:=F) clock fuel (AObj a p (IFixed n st) lg) d) as [q o'] eqn:Er. cbn [fst] in Hr. subst q. exists r. split; [reflexivity|].
    apply (run_cases false None disagreement d E0) in Er. destruct Er as (_ & x0 & k' & it' & E1 & El & x & Ef & ->). cbn [r_iterations].
    pose proof (checked a p k d x0 H E0 E1) as C. apply (final_ok (F:=F) a it' _ x) in Ef; [|exact Ha]. subst x.
    assert (Ek : k' = Z.to_nat n).
    { cbn [reset] in El. assert (G : forall fuel j k' it', (j <= Z.to_nat n)%nat -> it_loop (F:=F) (cmp1 (F:=F) a d x0) (cmp2 (F:=F) a d x0) (stops (F:=F) a d x0) fuel (IFixed n j) j = ((Ok tt, k'), it') -> k' = Z.to_nat n).
      { clear - C. induction fuel as [|fu IH]; intros j k' it' Hj E; [discriminate|]. cbn [it_loop finished] in E. destruct (Z.leb_spec n (Z.of_nat j)) as [Q|Q].
        - injection E as <- _. lia.
        - rewrite (proj2 (C j)) in E. cbn [compare] in E. apply IH in E; [exact E|lia]. }
      apply (G fuel 0%nat k' it'); [lia|exact El]. }
    split; [now f_equal|]. assert (Hk : (k <= k')%nat) by lia. pose proof (proj1 (C k') Hk) as Es.
    match goal with |- only_nan ?r => assert (Rp : reports disagreement r (fun _ => nan64) (fun _ => nan64)) end.
    { apply (reports64 L); [exact (f_equal (fun y => tdict (F:=F) disagreement (fst y)) Es)|exact (f_equal (fun y => bdict (F:=F) disagreement (snd y)) Es)]. }
    destruct Rp as (Ra & Rb & _). split; intros y Hy; [rewrite Ra|rewrite Rb]; apply mem_In in Hy; rewrite Hy; reflexivity.
  Qed.

  (** Investment(g=2) with its default priors (VOTED) and any number n >= 12 of rounds: every score is NaN. *)
  Theorem C96_investment_nan : exists d, build (F:=F) false None disagreement = Ok d /\
    forall clock fuel n st lg, (12 <= n)%Z -> (Z.to_nat n < fuel)%nat ->
      exists r, fst (run (F:=F) clock fuel (AObj (mk_investment (F:=F) (Some two)) VOTED (IFixed n st) lg) d) = Ok r /\ r_iterations r = Some (Z.to_nat n) /\ only_nan r.
  Proof. apply (checked_run (mk_investment (F:=F) (Some two)) VOTED 12); [vm_compute; reflexivity|discriminate|discriminate]. Qed.
  (** in particular with the constructor's default iterator *)
  Theorem C96_investment_nan_default : exists d, build (F:=F) false None disagreement = Ok d /\
    forall clock fuel, (20 < fuel)%nat ->
      exists r, fst (run (F:=F) clock fuel (mk_obj (F:=F) (mk_investment (F:=F) (Some two)) None None) d) = Ok r /\ r_iterations r = Some 20%nat /\ only_nan r.
  Proof.
    destruct C96_investment_nan as (d & E & H). exists d. split; [exact E|]. intros clock fuel Hf. exact (H clock fuel 20%Z 0%nat None ltac:(lia) Hf).
  Qed.
  (** PooledInvestment(g=2) with its default priors (UNIFORM) and any number n >= 540 of rounds: the same *)
  Theorem C96_pooled_nan : exists d, build (F:=F) false None disagreement = Ok d /\
    forall clock fuel n st lg, (540 <= n)%Z -> (Z.to_nat n < fuel)%nat ->
      exists r, fst (run (F:=F) clock fuel (AObj (mk_pooled (F:=F) (Some two)) UNIFORM (IFixed n st) lg) d) = Ok r /\ r_iterations r = Some (Z.to_nat n) /\ only_nan r.
  Proof. apply (checked_run (mk_pooled (F:=F) (Some two)) UNIFORM (Z.to_nat 540)); [vm_compute; reflexivity|discriminate|discriminate]. Qed.
End C96.

(** Non-vacuity: the condition of C95 is what fails here.  The C library satisfies C95's [usable_pow] for g = 2, and the same run with 5
    rounds meets the condition on the trusts (they are 1, 2^-16 and 2^-16), so C95 applies to it. *)
Module Invest64Examples.
  Definition id1 (x : b64) := x. Definition id2 (x y : b64) := x.
  Definition lm := squaring id1 id1 id2.
  Definition inv2 : alg (B64 lm) := Investment (ofZ64 2 : B64 lm).
  Lemma lm_two x : lm_pow lm x (ofZ64 2) = Bmult mode_NE x x.
  Proof. reflexivity. Qed.
  Lemma lm_usable : usable_pow lm (ofZ64 2).
  Proof.
    assert (B : forall x, double_in 0 (bpow radix2 320) x -> isf (Bmult mode_NE x x) (rnd (B2R64 x * B2R64 x)) /\ (0 <= rnd (B2R64 x * B2R64 x) <= bpow radix2 640)%R).
    { intros x (Fx & Hx). apply (mul_up64 x x (B2R64 x) (B2R64 x) 320 320); [split; [exact Fx|reflexivity]|split; [exact Fx|reflexivity]|exact Hx|exact Hx|lia]. }
    split; intros x Hx; rewrite lm_two.
    - destruct (B x Hx) as (H1 & H2). apply within_double. eexists. split; [exact H1|]. assert (bpow radix2 640 <= bpow radix2 800)%R by (apply bpow_le; lia). lra.
    - destruct Hx as (Fx & H1 & H2). pose proof (bpow_gt_0 radix2 (-480)) as P. destruct (B x) as ((_ & ->) & _); [split; [exact Fx|lra]|].
      apply Rle_trans with (bpow radix2 (-480 + -480)); [apply bpow_le; lia|]. apply mul_low; [exact H1|exact H1|lia].
  Qed.
  Definition tenth : b64 := SF2B (prec:=53) (emax:=1024) (SpecFloat.S754_finite false 4503599627370496 (-152)) eq_refl.
  Lemma tenth_val : isf tenth (bpow radix2 (-100)).
  Proof.
    split; [reflexivity|]. unfold tenth. rewrite B2R_SF2B. unfold SF2R, F2R. cbn [Fnum Fexp cond_Zopp].
    change (bpow radix2 52 * bpow radix2 (-152) = bpow radix2 (-100))%R. rewrite <- bpow_plus. reflexivity.
  Qed.
  Definition ok (x : b64) : bool := is_finite x && Bleb tenth x.
  Lemma ok_not_tiny x : ok x = true -> not_tiny x.
  Proof.
    unfold ok. intros H. apply andb_true_iff in H. destruct H as (Fx & H). split; [exact Fx|]. destruct tenth_val as (Ft & Et). rewrite (Bleb_correct _ _ _ _ Ft Fx) in H. apply Rle_bool_true_iff in H || (revert H; case Rle_bool_spec; [|discriminate]; intros H _). rewrite <- Et. exact H.
  Qed.
  Definition five : bool := match build (F:=B64 lm) false None disagreement with Err _ => false | Ok d =>
    match fst (run_iter (F:=B64 lm) (fun _ => ofZ64 0) 10 (AObj inv2 VOTED (IFixed 5 0) None) d) with
    | Ok l => forallb (fun r => forallb (fun e => ok (snd e)) (r_trust r)) l && Nat.eqb (length l) 6 | Err _ => false end end.
  Example five_rounds : exists d, build (F:=B64 lm) false None disagreement = Ok d /\
    exists r, fst (run (F:=B64 lm) (fun _ => ofZ64 0) 10 (AObj inv2 VOTED (IFixed 5 0) None) d) = Ok r /\ scores_normal r.
  Proof.
    assert (C : five = true) by (vm_compute; reflexivity). unfold five in C. destruct (build (F:=B64 lm) false None disagreement) as [d|e] eqn:E0; [|discriminate].
    exists d. split; [reflexivity|]. destruct (run_iter (F:=B64 lm) (fun _ => ofZ64 0) 10 (AObj inv2 VOTED (IFixed 5 0) None) d) as [[l|e] o2] eqn:EI; cbn [fst] in C; [|discriminate].
    apply andb_true_iff in C. destruct C as (C & Len). rewrite forallb_forall in C.
    destruct (C28_fixed_returns false None disagreement d E0 (fun _ => ofZ64 0) 10 inv2 VOTED 5 0 None) as (r & Hr); [discriminate|discriminate|discriminate|cbn; lia|].
    exists r. split; [exact Hr|]. destruct (run (F:=B64 lm) (fun _ => ofZ64 0) 10 (AObj inv2 VOTED (IFixed 5 0) None) d) as [q o'] eqn:Er. cbn [fst] in Hr. subst q.
    assert (K : exists k, r_iterations r = Some k /\ k <> 0%nat).
    { pose proof Er as Er'. apply (run_cases false None disagreement d E0) in Er'. destruct Er' as (NE & x0 & k & it' & E1 & El & x & Ef & ->). exists k. split; [reflexivity|].
      rewrite (run_iter_char (F:=B64 lm) (fun _ => ofZ64 0) disagreement None d (build_rep _ _ _ _ E0) NE), E1, El in EI. unfold final, inv2 in EI. injection EI as <- _.
      intros ->. discriminate Len. }
    destruct K as (k & Ek & K0).
    apply (C95_invest_float lm (ofZ64 2) lm_usable false None disagreement d E0 ltac:(vm_compute; discriminate) ltac:(vm_compute; discriminate)
      (fun _ => ofZ64 0) (fun _ => ofZ64 0) 10 inv2 VOTED (IFixed 5 0) None None r o' o2 l k (or_introl eq_refl) Er Ek K0 EI).
    intros r' Hr' s v Hv. apply C in Hr'. rewrite forallb_forall in Hr'. unfold trust_of in Hv. apply dget_In in Hv. apply Hr' in Hv. now apply ok_not_tiny.
  Qed.
  (** a correctly rounded pow is usable for every exponent in [0, 2], the defaults 1.2 and 1.4 included *)
  Local Open Scope R_scope.
  Lemma ln_bpow e : ln (bpow radix2 e) = IZR e * ln 2.
  Proof. rewrite bpow_powerRZ. replace (IZR radix2) with 2 by (cbn; lra). rewrite powerRZ_Rpower by lra. unfold Rpower. apply ln_exp. Qed.
  Lemma Rpower_up x g : 0 <= g <= 2 -> 0 <= x <= bpow radix2 320 -> 0 <= Rpower x g <= bpow radix2 640.
  Proof.
    intros Hg Hx. unfold Rpower. split; [left; apply exp_pos|]. assert (L2 : 0 < ln 2) by (rewrite <- ln_1; apply ln_increasing; lra).
    assert (Lx : ln x <= IZR 320 * ln 2).
    { rewrite <- ln_bpow. destruct (Rle_lt_or_eq_dec 0 x (proj1 Hx)) as [P|<-].
      - destruct (Req_dec x (bpow radix2 320)) as [->|N]; [lra|]. left. apply ln_increasing; lra.
      - assert (Z : ln 0 = 0) by (unfold ln; destruct (Rlt_dec 0 0) as [Q|_]; [destruct (Rlt_irrefl 0 Q)|reflexivity]). rewrite Z, ln_bpow. nra. }
    rewrite <- (exp_ln (bpow radix2 640)) by apply bpow_gt_0. rewrite ln_bpow.
    assert (G : g * ln x <= IZR 640 * ln 2) by (destruct (Rle_dec (ln x) 0); nra). destruct (Req_dec (g * ln x) (IZR 640 * ln 2)) as [->|]; [lra|]. left. apply exp_increasing. lra.
  Qed.
  Lemma Rpower_low x g : 0 <= g <= 2 -> bpow radix2 (-480) <= x -> bpow radix2 (-960) <= Rpower x g.
  Proof.
    intros Hg Hx. assert (L2 : 0 < ln 2) by (rewrite <- ln_1; apply ln_increasing; lra). pose proof (bpow_gt_0 radix2 (-480)) as P.
    assert (Lx : IZR (-480) * ln 2 <= ln x). { rewrite <- ln_bpow. destruct (Req_dec x (bpow radix2 (-480))) as [->|N]; [lra|]. left. apply ln_increasing; lra. }
    unfold Rpower. rewrite <- (exp_ln (bpow radix2 (-960))) by apply bpow_gt_0. rewrite ln_bpow.
    assert (G : IZR (-960) * ln 2 <= g * ln x) by (destruct (Rle_dec (ln x) 0); nra). destruct (Req_dec (IZR (-960) * ln 2) (g * ln x)) as [->|]; [lra|]. left. apply exp_increasing. lra.
  Qed.
  Lemma rounded_pow_usable g : 0 <= B2R64 g <= 2 -> usable_pow AccuracyExamples.lm g.
  Proof.
    intros Hg. assert (B : forall x, double_in 0 (bpow radix2 320) x -> isf (lm_pow AccuracyExamples.lm x g) (rnd (Rpower (B2R64 x) (B2R64 g)))).
    { intros x (Fx & Hx). pose proof (Rpower_up _ _ Hg Hx) as U. apply AccuracyExamples.of_R_isf. rewrite Rabs_pos_eq by tauto. apply Rle_lt_trans with (bpow radix2 640); [tauto|apply bpow_lt; lia]. }
    split; intros x Hx.
    - apply within_double. eexists. split; [apply (B x Hx)|]. destruct Hx as (Fx & Hx). destruct (Rpower_up _ _ Hg Hx) as (U1 & U2). split; [apply rnd_ge_fmt; [apply fmt_0|exact U1]|].
      apply rnd_le_fmt; [apply fmt_bpow; lia|]. assert (bpow radix2 640 <= bpow radix2 800) by (apply bpow_le; lia). lra.
    - destruct Hx as (Fx & H1 & H2). pose proof (bpow_gt_0 radix2 (-480)) as P. destruct (B x) as (_ & ->); [split; [exact Fx|lra]|].
      apply Rle_trans with (bpow radix2 (-960)); [apply bpow_le; lia|]. apply rnd_low; [lia|]. now apply Rpower_low.
  Qed.
End Invest64Examples.
