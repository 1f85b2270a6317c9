(** C40: UnboundedSums. *)
From Coq Require Import Reals Lra.
From Verif Require Import Base Num Sparse Spec SpecAlg Dataset DatasetProofs DatasetRep Iterators Algorithms Driver Distance Ranking Rounds
  AlgRep AlgRounds AlgTF AlgPack PropsData PropsIter PropsRun PropsAlg.
Local Open Scope R_scope.

Lemma ord_compare_ranks {A} (u v u' v' : A -> R) (l : list A) t n c :
  (forall x, In x l -> rrank u l x = rrank u' l x) -> (forall x, In x l -> rrank v l x = rrank v' l x) ->
  @compare XR (IOrd t n c) (map (fun x => Fin (u x)) l) (map (fun x => Fin (v x)) l) =
  @compare XR (IOrd t n c) (map (fun x => Fin (u' x)) l) (map (fun x => Fin (v' x)) l).
Proof.
  intros H1 H2. cbn [compare]. rewrite !ranking_fv.
  rewrite (map_ext_in (fun a => Fin (INR (rrank u l a))) (fun a => Fin (INR (rrank u' l a)))) by (intros a Ha; now rewrite H1).
  rewrite (map_ext_in (fun a => Fin (INR (rrank v l a))) (fun a => Fin (INR (rrank v' l a)))) by (intros a Ha; now rewrite H2).
  reflexivity.
Qed.
Lemma it_loop_ext_ord {F : Num} (a b a' b' : nat -> vec F) brk brk' fuel : forall t n c k,
  (forall t n c k, compare (IOrd t n c) (a k) (b k) = compare (IOrd t n c) (a' k) (b' k)) -> (forall k, brk k = brk' k) ->
  it_loop a b brk fuel (IOrd t n c) k = it_loop a' b' brk' fuel (IOrd t n c) k.
Proof.
  induction fuel as [|m IH]; intros t n c k Hc Hb; [reflexivity|].
  change (it_loop a b brk (Datatypes.S m) (IOrd t n c) k) with
    (match @finished F (IOrd t n c) with Err e => ((Err e, k), IOrd t n c) | Ok true => ((Ok tt, k), IOrd t n c) | Ok false =>
       if brk k then ((Ok tt, k), IOrd t n c) else match compare (IOrd t n c) (a k) (b k) with (Err e, it') => ((Err e, k), it') | (Ok tt, it') => it_loop a b brk m it' (Datatypes.S k) end end).
  change (it_loop a' b' brk' (Datatypes.S m) (IOrd t n c) k) with
    (match @finished F (IOrd t n c) with Err e => ((Err e, k), IOrd t n c) | Ok true => ((Ok tt, k), IOrd t n c) | Ok false =>
       if brk' k then ((Ok tt, k), IOrd t n c) else match compare (IOrd t n c) (a' k) (b' k) with (Err e, it') => ((Err e, k), it') | (Ok tt, it') => it_loop a' b' brk' m it' (Datatypes.S k) end end).
  destruct (@finished F (IOrd t n c)) as [[|]|]; try reflexivity. rewrite Hb, Hc. destruct (brk' k); [reflexivity|].
  cbn [compare]. destruct (get_ranking_vector (a' k)), (get_ranking_vector (b' k)); try reflexivity. now apply IH.
Qed.

Section C40.
  Context {S V W : Type} {ES : Eqb S} {EV : Eqb V} {EW : Eqb W}.
  Notation data := (dataset S V W XR).
  Notation claim := (V * W)%type.
  Notation rscores := (@rscores S V W).
  Notation result := (result S V W xr).
  Variables (b : bool) (f : option (V -> W -> W -> option R)) (ts : list (S * V * W)) (d : data).
  Hypothesis Hb : build b (real_imp f) ts = Ok d.
  Let R0 : ds_rep ts (real_imp f) d := build_rep _ _ _ _ Hb.

  (** scores [x] are positive multiples of [y] *)
  Definition multiple (x y : rscores) : Prop :=
    exists q1 q2, 0 < q1 /\ 0 < q2 /\ (forall s, In s (sources ts) -> fst x s = q1 * fst y s) /\ (forall c, In c (claims ts) -> snd x c = q2 * snd y c).
  Lemma total_belief_scal bel bel' q s : (forall c, In c (claims ts) -> bel c = q * bel' c) -> total_belief ts bel s = q * total_belief ts bel' s.
  Proof. intros H. unfold total_belief. rewrite <- rsum_scal. apply rsum_ext. intros c Hc. apply H. unfold claims_of in Hc. apply filter_In in Hc. tauto. Qed.
  Lemma plain_multiple x y : multiple x y -> multiple (plain_step ts x) (plain_step ts y).
  Proof.
    intros (q1 & q2 & H1 & H2 & Hs & Hc). exists q2, q2. repeat split; auto; cbn [fst snd plain_step].
    - intros s _. now apply total_belief_scal.
    - intros c _. unfold total_trust. rewrite <- rsum_scal. apply rsum_ext. intros s _. now apply total_belief_scal.
  Qed.
  Lemma multiple_trans x y z : multiple x y -> multiple y z -> multiple x z.
  Proof.
    intros (q1 & q2 & H1 & H2 & Hs & Hc) (p1 & p2 & I1 & I2 & Is & Ic). exists (q1 * p1), (q2 * p2).
    split; [now apply Rmult_lt_0_compat|]. split; [now apply Rmult_lt_0_compat|]. split.
    - intros s S1. rewrite Hs, Is by assumption. ring.
    - intros s S1. rewrite Hc, Ic by assumption. ring.
  Qed.
  Lemma multiple_refl x : multiple x x.
  Proof. exists 1, 1. repeat split; try lra; intros; lra. Qed.
  Lemma downscale_scal {A} (l : list A) g : exists q, 0 < q /\ forall x, downscale l g x = q * g x.
  Proof. unfold downscale. destruct (rltb 1000 (rmax g l)); [exists (/ 1000)|exists 1]; (split; [lra|]); intros; lra. Qed.
  Lemma usums_multiple x0 k : multiple (rounds (usums_step ts) x0 k) (rounds (plain_step ts) x0 k).
  Proof.
    induction k as [|k IH]; [apply multiple_refl|]. cbn [rounds]. eapply multiple_trans; [|apply plain_multiple, IH].
    set (x := rounds (usums_step ts) x0 k). destruct (downscale_scal (sources ts) (total_belief ts (snd x))) as (q1 & H1 & E1).
    destruct (downscale_scal (claims ts) (total_trust ts (total_belief ts (snd x)))) as (q2 & H2 & E2).
    exists q1, q2. repeat split; auto; intros; cbn [fst snd usums_step plain_step]; auto.
  Qed.
  Lemma sums_multiple x0 k : ts <> [] -> (forall c, In c (claims ts) -> 0 < snd x0 c) -> multiple (rounds (sums_step ts) x0 k) (rounds (plain_step ts) x0 k).
  Proof.
    intros NE P0. induction k as [|k IH]; [apply multiple_refl|]. cbn [rounds]. eapply multiple_trans; [|apply plain_multiple, IH].
    destruct (sums_rounds_pos b f ts d Hb x0 k NE P0) as [P _]. set (x := rounds (sums_step ts) x0 k) in *.
    assert (P1 : forall s, In s (sources ts) -> 0 < total_belief ts (snd x) s) by (intros; now apply total_belief_pos).
    assert (P2 : forall c, In c (claims ts) -> 0 < total_trust ts (total_belief ts (snd x)) c) by (intros; now apply total_trust_pos).
    exists (/ rmax (total_belief ts (snd x)) (sources ts)), (/ rmax (total_trust ts (total_belief ts (snd x))) (claims ts)).
    split; [apply Rinv_0_lt_compat, rmax_src_pos; auto|]. split; [apply Rinv_0_lt_compat, rmax_cl_pos; auto|].
    split; intros; cbn [fst snd sums_step plain_step]; unfold by_max, Rdiv; ring.
  Qed.
  Lemma multiple_ranks x y : multiple x y ->
    (forall s, In s (sources ts) -> rrank (fst x) (sources ts) s = rrank (fst y) (sources ts) s) /\
    (forall c, In c (claims ts) -> rrank (snd x) (claims ts) c = rrank (snd y) (claims ts) c).
  Proof.
    intros (q1 & q2 & H1 & H2 & Hs & Hc). split; intros z Hz.
    - rewrite (rrank_ext _ _ _ Hs z Hz). now apply rrank_scal.
    - rewrite (rrank_ext _ _ _ Hc z Hz). now apply rrank_scal.
  Qed.

  (** ranks as scores *)
  Definition ranks (x : rscores) : rscores := ((fun s => INR (rrank (fst x) (sources ts) s)), (fun c => INR (rrank (snd x) (claims ts) c))).
  Lemma denote_ranks x t n c : final UnboundedSums (@IOrd XR t n c) (denote ts x) = Ok (denote ts (ranks x)).
  Proof. cbn [final]. unfold denote, tvec, bvec. cbn [fst snd]. rewrite !ranking_fv. reflexivity. Qed.
  Lemma reports_ext (r : result) (x y : rscores) : (forall s, In s (sources ts) -> fst x s = fst y s) -> (forall c, In c (claims ts) -> snd x c = snd y c) ->
    reports_real ts r x -> reports_real ts r y.
  Proof.
    intros H1 H2 (A & B & C). split; [|split; [|exact C]].
    - intros s. rewrite A. destruct (mem s (sources ts)) eqn:E; [|reflexivity]. apply mem_In in E. now rewrite H1.
    - intros s. rewrite B. destruct (mem s (claims ts)) eqn:E; [|reflexivity]. apply mem_In in E. now rewrite H2.
  Qed.

  (** With an ordinal iterator, UnboundedSums and Sums (same priors, same iterator) stop after the same number of rounds,
      and UnboundedSums reports the ranks of the scores reported by Sums. *)
  Theorem C40_same_as_sums clock fuel p t n c lg : let run_of a := fst (run clock fuel (AObj a p (IOrd t n c) lg) d) in
    match run_of UnboundedSums, run_of Sums with
    | Err e, Err e' => e = e'
    | Ok ru, Ok rs => r_iterations ru = r_iterations rs /\
        exists x, reports_real ts rs x /\ reports_real ts ru (ranks x)
    | _, _ => False
    end.
  Proof.
    cbn zeta. destruct ts as [|t0 tr] eqn:Ets.
    - pose proof (C26_empty b (real_imp f) [] d Hb clock fuel) as Q.
      destruct (proj1 (Q (AObj UnboundedSums p (IOrd t n c) lg)) eq_refl) as (-> & _). destruct (proj1 (Q (AObj Sums p (IOrd t n c) lg)) eq_refl) as (-> & _). reflexivity.
    - rewrite <- Ets in *. assert (NE : ts <> []) by (rewrite Ets; discriminate). clear Ets t0 tr.
      rewrite !(run_char clock ts (real_imp f) d R0 NE).
      rewrite (pack_start b f ts d Hb NE UnboundedSums p I), (pack_start b f ts d Hb NE Sums p I).
      change (start ts UnboundedSums p) with (start ts Sums p). destruct (start ts Sums p) as [x0|] eqn:E0; [|reflexivity]. cbn [option_map].
      pose proof (start_belief_pos ts Sums p x0 (or_introl eq_refl) E0) as P0.
      pose proof (pack_cmp b f ts d Hb NE UnboundedSums x0 I I I) as CU. pose proof (pack_cmp b f ts d Hb NE Sums x0 I I P0) as CS.
      cbn [reset].
      rewrite (it_loop_ext_ord (cmp1 UnboundedSums d (denote ts x0)) (cmp2 UnboundedSums d (denote ts x0)) (cmp1 Sums d (denote ts x0)) (cmp2 Sums d (denote ts x0))
        (stops UnboundedSums d (denote ts x0)) (stops Sums d (denote ts x0)) fuel).
      + pose proof (it_loop_reset (cmp1 Sums d (denote ts x0)) (cmp2 Sums d (denote ts x0)) (stops Sums d (denote ts x0)) fuel (IOrd t 0 0) 0) as Q.
        destruct (it_loop _ _ _ fuel (IOrd t 0 0) 0) as [[q k] it']. cbn [snd reset] in Q.
        assert (I' : exists t n c, it' = IOrd t n c) by (destruct it'; cbn in Q; try discriminate; eauto). destruct I' as (t' & n' & c' & ->).
        destruct q as [[]|e]; [|reflexivity].
        rewrite (proj1 (pack_scores b f ts d Hb NE UnboundedSums x0 I I I k)), (proj1 (pack_scores b f ts d Hb NE Sums x0 I I P0 k)).
        cbn [step_of]. rewrite denote_ranks. cbn [final]. cbn [r_iterations fst]. split; [reflexivity|].
        exists (rounds (sums_step ts) x0 k). split; [apply reports_denote; reflexivity|].
        destruct (multiple_ranks _ _ (usums_multiple x0 k)) as [U1 U2]. destruct (multiple_ranks _ _ (sums_multiple x0 k NE P0)) as [S1 S2].
        apply (reports_ext _ (ranks (rounds (usums_step ts) x0 k))); [| |apply reports_denote; reflexivity]; cbn [ranks fst snd]; intros z Hz.
        * now rewrite U1, S1.
        * now rewrite U2, S2.
      + intros t' n' c' k. destruct (CU k) as (-> & -> & _). destruct (CS k) as (-> & -> & _). cbn [compared step_of fst snd].
        destruct (usums_multiple x0 k) as (q1 & q2 & H1 & H2 & Hs & Hc). destruct (sums_multiple x0 k NE P0) as (p1 & p2 & I1 & I2 & Is & Ic).
        apply ord_compare_ranks; intros s Hx.
        * destruct (multiple_ranks _ _ (usums_multiple x0 k)) as [U1 _]. destruct (multiple_ranks _ _ (sums_multiple x0 k NE P0)) as [S1 _]. now rewrite U1, S1.
        * rewrite (rrank_ext (total_belief ts (snd (rounds (usums_step ts) x0 k))) (fun s => q2 * total_belief ts (snd (rounds (plain_step ts) x0 k)) s)) by (auto; intros; now apply total_belief_scal).
          rewrite rrank_scal by assumption. symmetry.
          pose proof (multiple_ranks _ _ (sums_multiple x0 (Datatypes.S k) NE P0)) as [S1 _]. cbn [rounds] in S1. now apply S1.
      + intros k. destruct (CU k) as (_ & _ & ->). destruct (CS k) as (_ & _ & ->). reflexivity.
  Qed.
  (** What UnboundedSums reports: the ranks of the plain recurrence (no division at all). *)
  Theorem C40_ranks_of_plain_recurrence clock fuel p t n c lg r o' : run clock fuel (AObj UnboundedSums p (IOrd t n c) lg) d = (Ok r, o') ->
    exists x0 k, start ts UnboundedSums p = Some x0 /\ r_iterations r = Some k /\ reports_real ts r (ranks (rounds (plain_step ts) x0 k)).
  Proof.
    intros H. destruct (run_has_start b f ts d Hb clock fuel UnboundedSums p (IOrd t n c) lg r o' I H) as (NE & x0 & E0). change (start ts (@UnboundedSums (num XR)) p = Some x0) in E0.
    rewrite (run_char clock ts (real_imp f) d R0 NE) in H. pose proof (pack_start b f ts d Hb NE UnboundedSums p I) as PS. rewrite E0 in PS. rewrite PS in H. cbn [option_map reset] in H.
    pose proof (it_loop_reset (cmp1 UnboundedSums d (denote ts x0)) (cmp2 UnboundedSums d (denote ts x0)) (stops UnboundedSums d (denote ts x0)) fuel (IOrd t 0 0) 0) as Q.
    destruct (it_loop _ _ _ fuel (IOrd t 0 0) 0) as [[q k] it']. cbn [snd reset] in Q.
    assert (I' : exists t n c, it' = IOrd t n c) by (destruct it'; cbn in Q; try discriminate; eauto). destruct I' as (t' & n' & c' & ->).
    destruct q as [[]|e]; [|discriminate]. rewrite (proj1 (pack_scores b f ts d Hb NE UnboundedSums x0 I I I k)) in H. cbn [step_of] in H. rewrite denote_ranks in H.
    injection H as <- _. exists x0, k. split; [exact E0|]. split; [reflexivity|].
    destruct (multiple_ranks _ _ (usums_multiple x0 k)) as [U1 U2].
    apply (reports_ext _ (ranks (rounds (usums_step ts) x0 k))); [| |apply reports_denote; reflexivity]; cbn [ranks fst snd]; intros z Hz.
    - now rewrite U1.
    - now rewrite U2.
  Qed.
  (** Any other iterator: never a result. *)
  Definition ordinal (it : iterator XR) : bool := match it with IOrd _ _ _ => true | _ => false end.
  Theorem C40_needs_ordinal clock fuel p it lg : ordinal it = false ->
    (forall r o', run clock fuel (AObj UnboundedSums p it lg) d <> (Ok r, o')) /\
    (forall l n, it = IFixed l n -> ts <> [] -> p <> BadPrior -> (Z.to_nat l < fuel)%nat -> fst (run clock fuel (AObj UnboundedSums p it lg) d) = Err NoSuchMethod).
  Proof.
    intros Ho. split.
    - intros r o' H. apply (run_cases b (real_imp f) ts d Hb) in H. destruct H as (NE & x0 & k & it' & E0 & El & x & Ef & _).
      pose proof (it_loop_reset (cmp1 UnboundedSums d x0) (cmp2 UnboundedSums d x0) (stops UnboundedSums d x0) fuel (reset it) 0) as Q.
      rewrite El in Q. cbn [snd] in Q. destruct it, it'; cbn in Ho, Q, Ef; try discriminate.
    - intros l n -> NE Hp Hf. rewrite (run_char clock ts (real_imp f) d R0 NE), (pack_start b f ts d Hb NE UnboundedSums p I).
      destruct (start ts UnboundedSums p) as [x0|] eqn:E0; [|cbn in E0; destruct p; discriminate || congruence]. cbn [option_map reset].
      rewrite (it_loop_fixed (cmp1 UnboundedSums d (denote ts x0)) (cmp2 UnboundedSums d (denote ts x0)) (stops UnboundedSums d (denote ts x0)) fuel l 0 0 (Z.to_nat l)).
      + reflexivity.
      + lia.
      + intros j Hj. destruct (pack_cmp b f ts d Hb NE UnboundedSums x0 I I I j) as (_ & _ & ->). split; [reflexivity|lia].
      + right. lia.
      + lia.
  Qed.
End C40.

(** ** Non-vacuity: a run of UnboundedSums that returns (threshold 0 stops at once; threshold 1 after one agreeing round) *)
Module OrdExamples.
  Import ListNotations.
  (* with a single source the rankings agree from the first comparison on *)
  Definition one : list (nat * nat * nat) := [(1, 0, 1); (1, 7, 1)]%nat.
  Lemma one_builds : exists d : dataset nat nat nat XR, build false (real_imp None) one = Ok d.
  Proof. apply AlgExamples.strict_builds. unfold one, sv_pairs; cbn. repeat constructor; cbn; intuition congruence. Qed.
  Example usums_returns : exists (d : dataset nat nat nat XR) r, build false (real_imp None) one = Ok d /\
    fst (run (fun _ => Fin 0) 30 (AObj UnboundedSums COUNT (mk_ord (Some 1%Z)) None) d) = Ok r /\ r_iterations r = Some 1%nat.
  Proof.
    destruct one_builds as [d E]. exists d. assert (NE : one <> []) by discriminate. pose proof (build_rep _ _ _ _ E) as R0.
    rewrite (run_char (fun _ => Fin 0) one (real_imp None) d R0 NE), (pack_start false None one d E NE UnboundedSums COUNT I). cbn [start prior_spec option_map].
    match goal with |- context [denote one ?x] => set (x0 := x) end.
    pose proof (pack_cmp false None one d E NE UnboundedSums x0 I I I 0) as (C1 & C2 & C3). cbn [rounds] in *.
    change (reset (mk_ord (Some 1%Z))) with (@IOrd XR 1 0 0).
    assert (L : it_loop (cmp1 UnboundedSums d (denote one x0)) (cmp2 UnboundedSums d (denote one x0)) (stops UnboundedSums d (denote one x0)) 30 (@IOrd XR 1 0 0) 0
      = ((Ok tt, 1%nat), IOrd 1 1 1)).
    { cbn [it_loop]. change (@finished XR (IOrd 1 0 0)) with (@Ok aerr bool false). cbn iota. rewrite C3, C1, C2. unfold compare, tvec. rewrite !ranking_fv.
      change (sources one) with [1%nat]. cbn [map]. assert (Z : forall g : nat -> R, rrank g [1%nat] 1%nat = 0%nat).
      { intros g. unfold rrank. cbn. rewrite rltb_false by lra. reflexivity. }
      rewrite !Z. cbn [vall_eq zipw forallb]. change (@n_eqb XR (Fin (INR 0)) (Fin (INR 0))) with (reqb (INR 0) (INR 0)). rewrite reqb_refl. reflexivity. }
    rewrite L. rewrite (proj1 (pack_scores false None one d E NE UnboundedSums x0 I I I 1)), denote_ranks. eexists. split; [exact E|]. split; reflexivity.
  Qed.
End OrdExamples.
