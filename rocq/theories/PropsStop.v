(** C65: when an algorithm run with a ConvergenceIterator stops, in terms of the trust scores the user can see. *)
From Coq Require Import Reals Lra.
From Verif Require Import Base Num Sparse Spec Dataset DatasetProofs DatasetRep Iterators Algorithms Driver Rounds PropsData PropsIter PropsRun PropsAlg.

Section Loop.
  Context {F : Num}.
  Variables (a b : nat -> vec F) (brk : nat -> bool) (m : measure) (thr : F) (lim : Z).
  Definition near (cur : option F) : bool := match cur with Some x => n_ltb x thr | None => false end.
  Definition far_at (i : nat) : Prop := brk i = false /\ exists x, get_distance m (a i) (b i) = Ok x /\ n_ltb x thr = false.
  Definition near_at (i : nat) : Prop := brk i = false /\ exists x, get_distance m (a i) (b i) = Ok x /\ n_ltb x thr = true.
  Lemma conv_loop fuel j cur k it' : it_loop a b brk fuel (IConv m thr lim j cur) j = ((Ok tt, k), it') ->
    (near cur = true /\ k = j) \/
    (near cur = false /\ ((exists i, k = Datatypes.S i /\ j <= i /\ near_at i /\ forall i', j <= i' < i -> far_at i') \/ (j <= k /\ (Z.of_nat k < lim)%Z /\ brk k = true /\ forall i', j <= i' < k -> far_at i'))).
  Proof.
    revert j cur. induction fuel as [|n IH]; intros j cur H; [discriminate|]. cbn [it_loop finished] in H. fold (near cur) in H.
    destruct (near cur) eqn:Nr; [left; injection H as <- _; auto|right]. split; [reflexivity|].
    destruct (Z.leb_spec lim (Z.of_nat j)); [discriminate|]. destruct (brk j) eqn:Bj.
    - injection H as <- _. right. repeat split; auto; try lia. all: exfalso; lia.
    - cbn [compare] in H. destruct (get_distance m (a j) (b j)) as [x|] eqn:Ed; [|discriminate]. apply IH in H. cbn [near] in H.
      destruct H as [[H ->]|[H [(i & -> & Hi & Na & Fa)|(Hk & Hl & Bk & Fa)]]].
      + left. exists j. split; [reflexivity|]. split; [lia|]. split; [split; [exact Bj|eauto]|]. intros; lia.
      + left. exists i. split; [reflexivity|]. split; [lia|]. split; [exact Na|]. intros i' Hi'. destruct (Nat.eq_dec i' j) as [->|]; [split; [exact Bj|eauto]|apply Fa; lia].
      + right. split; [lia|]. split; [exact Hl|]. split; [exact Bk|]. intros i' Hi'. destruct (Nat.eq_dec i' j) as [->|]; [split; [exact Bj|eauto]|apply Fa; lia].
  Qed.
  Lemma conv_loop_err fuel j cur k it' : it_loop a b brk fuel (IConv m thr lim j cur) j = ((Err ConvergenceError, k), it') ->
    forall i, j <= i -> (Z.of_nat i < lim)%Z -> far_at i.
  Proof.
    revert j cur. induction fuel as [|n IH]; intros j cur H i Hi Hl; [discriminate|]. cbn [it_loop finished] in H. fold (near cur) in H.
    destruct (near cur) eqn:Nr; [discriminate|]. destruct (Z.leb_spec lim (Z.of_nat j)); [lia|]. destruct (brk j) eqn:Bj; [discriminate|].
    cbn [compare] in H. destruct (get_distance m (a j) (b j)) as [x|e] eqn:Ed.
    - pose proof H as H'. destruct (Nat.eq_dec i j) as [->|]; [|apply (IH _ _ H i); [lia|exact Hl]]. split; [exact Bj|]. exists x. split; [exact Ed|].
      destruct (n_ltb x thr) eqn:Q; [|reflexivity]. exfalso. destruct n as [|n']; [discriminate|]. cbn [it_loop finished] in H'. rewrite Q in H'. discriminate.
    - injection H as -> _ _. exfalso. destruct m; cbn in Ed; try discriminate; [destruct (norm_inf _); discriminate|destruct (_ || _)%bool; discriminate].
  Qed.
End Loop.

Section C65.
  Context {S V W : Type} {ES : Eqb S} {EV : Eqb V} {EW : Eqb W} {F : Num} {FOK : NumOK F}.
  Notation data := (dataset S V W F).
  Notation result := (result S V W F).
  Variables (b : bool) (impf : option (V -> W -> W -> option F)) (ts : list (S * V * W)) (d : data).
  Hypothesis Hb : build b impf ts = Ok d.
  Variables (a : alg F) (p : prior).

  (** the trust scores of a result, in its order of sources *)
  Definition trusts (r : result) : vec F := map snd (r_trust r).
  (** [r] is what the algorithm reports after exactly j rounds *)
  Definition after (j : nat) (r : result) : Prop := r_iterations r = Some j /\ exists clock fuel lg, fst (run clock fuel (AObj a p (IFixed (Z.of_nat j) 0) lg) d) = Ok r.
  (** the distance the trust scores moved in round j (the order in which the two vectors are given to the distance is not specified) *)
  Definition moved (m : measure) (j : nat) (x : F) : Prop :=
    exists r r', after (j - 1) r /\ after j r' /\ (get_distance m (trusts r) (trusts r') = Ok x \/ get_distance m (trusts r') (trusts r) = Ok x).
  Definition close_round m thr j : Prop := 1 <= j /\ exists x, moved m j x /\ n_ltb x thr = true.
  Definition distant_round m thr j : Prop := exists x, moved m j x /\ n_ltb x thr = false.
  (** the algorithm ends by itself after k rounds: no iterator can make it do more *)
  Definition ends_itself (k : nat) : Prop := forall clock fuel n lg r o', (Z.of_nat k <= n)%Z -> run clock fuel (AObj a p (IFixed n 0) lg) d = (Ok r, o') -> r_iterations r = Some k.

  Hypothesis Ha : a <> UnboundedSums.
  Lemma trusts_tdict t0 (bel : dict V (dict W F)) q n (v : vec F) : length v = length (sources ts) -> t0 = tdict ts v -> trusts (Result t0 bel q n) = v.
  Proof.
    intros L ->. unfold trusts, tdict. cbn [r_trust]. rewrite map_map. cbn [snd]. apply nth_ext with (d := n_ofZ 0) (d' := n_ofZ 0); [rewrite map_length; auto|].
    intros i Hi. rewrite map_length in Hi. destruct (nth_error (sources ts) i) as [s|] eqn:Es; [|apply nth_error_None in Es; lia].
    pose proof (map_nth_error (fun s => nth (pos s (sources ts)) v (n_ofZ 0)) i (sources ts) Es) as Q.
    rewrite (nth_error_nth _ _ _ Q). f_equal. apply pos_nth_error; [apply distinct_NoDup|exact Es].
  Qed.
  Lemma cmp_trusts x0 j : init a p d = Some x0 -> ts <> [] -> stops a d x0 j = false ->
    (cmp1 a d x0 j = fst (scores a d x0 j) /\ cmp2 a d x0 j = fst (scores a d x0 (Datatypes.S j))) \/ (cmp2 a d x0 j = fst (scores a d x0 j) /\ cmp1 a d x0 j = fst (scores a d x0 (Datatypes.S j))).
  Proof.
    intros E0 NE Hs. unfold cmp1, cmp2, stops in *. cbn [scores].
    pose proof (round_shaped ts impf d (build_rep _ _ _ _ Hb) NE a _ (scores_shaped (fun _ => n_ofZ 0) ts impf d (build_rep _ _ _ _ Hb) NE a x0 j (init_shaped ts impf d (build_rep _ _ _ _ Hb) a p x0 E0))) as Q.
    destruct (scores a d x0 j) as [t bl]. cbn [fst]. destruct (round a d (t, bl)) as [|e|u v x'] eqn:Er; [discriminate|contradiction|]. clear Q Hs.
    destruct a; cbn [round] in Er; unfold sums_upd, avlog_upd, inv_upd, pooled_upd, tf_upd, crh_upd in Er; cbv zeta in Er; try congruence.
    all: repeat match type of Er with context [match ?e with Some _ => _ | None => _ end] => destruct e; try discriminate end; injection Er as <- <- <-; cbn [fst]; auto.
  Qed.
  Lemma after_scores x0 j : init a p d = Some x0 -> ts <> [] -> (forall i, i < j -> stops a d x0 i = false) ->
    exists r, after j r /\ trusts r = fst (scores a d x0 j).
  Proof.
    intros E0 NE Hs. pose proof (build_rep _ _ _ _ Hb) as R.
    pose proof (run_char (fun _ => n_ofZ 0) ts impf d R NE a p (Datatypes.S j) (IFixed (Z.of_nat j) 0) None) as Q.
    rewrite E0 in Q. cbn [reset] in Q. rewrite (it_loop_fixed _ _ _ (Datatypes.S j) (Z.of_nat j) 0 0 j) in Q; [|lia|intros i Hi; split; [apply Hs; lia|lia]|right; lia|lia].
    assert (Fi : forall it x, final a it x = Ok x) by (destruct a; cbn; congruence). rewrite Fi in Q.
    eexists. split; [split; [|exists (fun _ => n_ofZ 0), (Datatypes.S j), None; rewrite Q; reflexivity]; reflexivity|].
    apply trusts_tdict; [|reflexivity]. pose proof (scores_shaped (fun _ => n_ofZ 0) ts impf d R NE a x0 j (init_shaped ts impf d R a p x0 E0)) as [L _]. rewrite L. apply (rep_ns _ _ _ R).
  Qed.
  Lemma moved_intro x0 m j x : init a p d = Some x0 -> ts <> [] -> (forall i, i <= j -> stops a d x0 i = false) -> get_distance m (cmp1 a d x0 j) (cmp2 a d x0 j) = Ok x -> moved m (Datatypes.S j) x.
  Proof.
    intros E0 NE Hs Ed. destruct (after_scores x0 j E0 NE ltac:(intros; apply Hs; lia)) as (r & A & T). destruct (after_scores x0 (Datatypes.S j) E0 NE ltac:(intros; apply Hs; lia)) as (r' & A' & T').
    exists r, r'. replace (Datatypes.S j - 1) with j by lia. split; [exact A|]. split; [exact A'|]. rewrite T, T'. destruct (cmp_trusts x0 j E0 NE (Hs j ltac:(lia))) as [[E1 E2]|[E1 E2]]; rewrite E1, E2 in Ed; auto.
  Qed.

  (** C65. A run that returns after k rounds: every round before moved the trust scores by at least the threshold, and round k by less (or
      the algorithm ended by itself). *)
  Theorem C65_stops clock fuel m thr lim c cur lg r o' : run clock fuel (AObj a p (IConv m thr lim c cur) lg) d = (Ok r, o') ->
    exists k, r_iterations r = Some k /\ (forall j, 1 <= j < k -> distant_round m thr j) /\
      (close_round m thr k \/ (distant_round m thr k \/ k = 0) /\ (Z.of_nat k < lim)%Z /\ ends_itself k).
  Proof.
    intros H. apply (run_cases b impf ts d Hb) in H. destruct H as (NE & x0 & k & it' & E0 & El & x & Ef & ->). exists k. split; [reflexivity|].
    cbn [reset] in El. pose proof (it_loop_nobrk (cmp1 a d x0) (cmp2 a d x0) (stops a d x0) fuel (IConv m thr lim 0 None) 0) as NB. rewrite El in NB. cbn [fst snd] in NB.
    assert (Far : forall i, i < k -> far_at (cmp1 a d x0) (cmp2 a d x0) (stops a d x0) m thr i -> distant_round m thr (Datatypes.S i)).
    { intros i Hi (_ & y & Ed & Hy). exists y. split; [|exact Hy]. apply (moved_intro x0); auto. intros i' Hi'. apply NB. lia. }
    apply conv_loop in El. destruct El as [[Q _]|[_ [(i & -> & _ & (_ & y & Ed & Hy) & Fa)|(_ & Hl & Bk & Fa)]]]; [discriminate| |].
    - split.
      + intros [|j] Hj; [lia|]. apply Far; [lia|]. apply Fa. lia.
      + left. split; [lia|]. exists y. split; [|exact Hy]. apply (moved_intro x0); auto. intros i' Hi'. apply NB. lia.
    - split.
      + intros [|j] Hj; [lia|]. apply Far; [lia|]. apply Fa. lia.
      + right. split; [|split; [exact Hl|]].
        * destruct k as [|k]; [auto|left]. apply Far; [lia|]. apply Fa. lia.
        * intros clock' fuel' n lg' r o'' Hn Hr. apply (run_cases b impf ts d Hb) in Hr. destruct Hr as (_ & x1 & k1 & it1 & E1 & El1 & y & _ & ->). cbn [r_iterations].
          rewrite E0 in E1. injection E1 as <-. cbn [reset] in El1. f_equal.
          assert (K : k1 < fuel').
          { pose proof (it_loop_ge (cmp1 a d x0) (cmp2 a d x0) (stops a d x0) fuel' (IFixed n 0) 0). clear -El1. assert (G : forall fu j l e, it_loop (cmp1 a d x0) (cmp2 a d x0) (stops a d x0) fu (IFixed n l) j = ((Ok tt, k1), e) -> k1 < fu + j).
            { induction fu as [|fu IH]; intros j l e H; [discriminate|]. cbn [it_loop finished] in H. destruct (n <=? Z.of_nat l)%Z; [injection H as <- _; lia|]. destruct (stops a d x0 j); [injection H as <- _; lia|]. cbn [compare] in H. apply IH in H. lia. }
            apply G in El1. lia. }
          destruct (le_lt_dec k k1) as [L|L].
          -- destruct (Nat.eq_dec k k1) as [->|Nk]; [reflexivity|]. exfalso. pose proof (it_loop_nobrk (cmp1 a d x0) (cmp2 a d x0) (stops a d x0) fuel' (IFixed n 0) 0 k) as Q. rewrite El1 in Q. cbn [fst snd] in Q. rewrite Bk in Q. specialize (Q ltac:(lia)). discriminate.
          -- exfalso. assert (G : forall fu j e, it_loop (cmp1 a d x0) (cmp2 a d x0) (stops a d x0) fu (IFixed n j) j = ((Ok tt, k1), e) -> stops a d x0 k1 = true \/ (n <= Z.of_nat k1)%Z).
             { clear. induction fu as [|fu IH]; intros j e H; [discriminate|]. cbn [it_loop finished] in H. destruct (Z.leb_spec n (Z.of_nat j)); [injection H as <- _; auto|]. destruct (stops a d x0 j) eqn:Sj; [injection H as <- _; auto|]. cbn [compare] in H. now apply IH in H. }
             apply G in El1. destruct El1 as [Q|Q]; [|lia]. rewrite NB in Q; [discriminate|lia].
  Qed.
  (** A run that fails to converge: none of the permitted rounds moved the trust scores by less than the threshold. *)
  Theorem C65_fails clock fuel m thr lim c cur lg : fst (run clock fuel (AObj a p (IConv m thr lim c cur) lg) d) = Err ConvergenceError ->
    forall j, 1 <= j -> (Z.of_nat j <= lim)%Z -> distant_round m thr j.
  Proof.
    intros H [|j] Hj Hl; [lia|]. destruct ts as [|t0 tr] eqn:Ets.
    { destruct (C26_empty b impf [] d Hb clock fuel (AObj a p (IConv m thr lim c cur) lg)) as [Q _]. destruct (Q eq_refl) as (Q1 & _). rewrite Q1 in H. discriminate. }
    rewrite <- Ets in *. assert (NE : ts <> []) by (rewrite Ets; discriminate). pose proof (build_rep _ _ _ _ Hb) as R. rewrite (run_char clock ts impf d R NE) in H.
    destruct (init a p d) as [x0|] eqn:E0; [|discriminate]. cbn [reset] in H. destruct (it_loop _ _ _ fuel _ 0) as [[[u|e] k] it'] eqn:El; cbn [fst] in H.
    - destruct (final a it' _) as [y|e] eqn:Ef; [discriminate|]. cbn [fst] in H. injection H as ->. exfalso. destruct a; cbn in Ef; congruence.
    - injection H as ->. pose proof (conv_loop_err _ _ _ _ _ _ _ _ _ _ _ El) as Fa. destruct (Fa j ltac:(lia) ltac:(lia)) as (_ & y & Ed & Hy). exists y. split; [|exact Hy].
      apply (moved_intro x0); auto. intros i Hi. apply (Fa i); lia.
  Qed.
End C65.

(** ** Non-vacuity, in doubles: Sums with a ConvergenceIterator returns after a few rounds for a threshold of 0.01, and fails for a
    threshold of 0 *)
From Flocq Require Import Core IEEE754.BinarySingleNaN.
From Verif Require Import Float PropsFloat.
Module StopExamples.
  Import FloatExamples.
  Definition attempt thr lim : option (sum nat bool) := match build (F:=B64 lm) false None ts with Err _ => None | Ok d =>
    match fst (run (F:=B64 lm) (fun _ => ofZ64 0) 200 (AObj Sums FIXED (IConv L_INF thr lim 0 None) None) d) with
    | Ok r => option_map inl (r_iterations r) | Err e => Some (inr match e with ConvergenceError => true | _ => false end) end end.
  Example returns : match attempt (lit (F:=B64 lm) 1 100) 100 with Some (inl k) => (2 <=? k) = true | _ => False end.
  Proof. vm_compute. reflexivity. Qed.
  Example fails : attempt (ofZ64 0) 5 = Some (inr true).
  Proof. vm_compute. reflexivity. Qed.
End StopExamples.
