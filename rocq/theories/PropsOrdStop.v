(** C104: when a run with an OrdinalIterator stops, in terms of the ranking of the sources. *)
From Coq Require Import Reals Lra.
From Verif Require Import Base Num Sparse Spec SpecAlg Dataset DatasetProofs DatasetRep Iterators Algorithms Driver Distance Ranking Rounds
  AlgRep AlgRounds AlgTF AlgPack Iso PropsData PropsIter PropsRun PropsAlg PropsOrd PropsCoherence PropsConv.
Local Open Scope R_scope.

Section OrdLoop.
  Variables (u v : nat -> vec XR) (keeps : nat -> bool).
  Hypothesis Hc : forall t n c i, compare (F:=XR) (IOrd t n c) (u i) (v i) = (Ok tt, IOrd t (Datatypes.S n) (if keeps i then Datatypes.S c else 0%nat)).
  (* the last t of the first k comparisons found no change *)
  Definition quiet (t k : nat) : Prop := (t <= k)%nat /\ forall i, (k - t <= i < k)%nat -> keeps i = true.
  Lemma ord_loop t : forall fuel n c j, (c <= j)%nat -> (forall i, (j - c <= i < j)%nat -> keeps i = true) -> (c < j -> keeps (j - c - 1) = false)%nat ->
    (exists k n' c', it_loop u v (fun _ => false) fuel (IOrd t n c) j = ((Ok tt, k), IOrd t n' c') /\ (j <= k < j + fuel)%nat /\ quiet (Z.to_nat t) k /\ forall k', (j <= k' < k)%nat -> ~ quiet (Z.to_nat t) k') \/
    (fst (fst (it_loop u v (fun _ => false) fuel (IOrd t n c) j)) = Err OutOfFuel /\ forall k', (j <= k' < j + fuel)%nat -> ~ quiet (Z.to_nat t) k').
  Proof.
    induction fuel as [|fuel IH]; intros n c j Hj Hk Hn; [right; split; [reflexivity|intros; lia]|].
    cbn [it_loop finished]. destruct (Z.leb_spec t (Z.of_nat c)) as [Ht|Ht].
    - left. exists j, n, c. split; [reflexivity|]. split; [lia|]. split; [split; [lia|intros i Hi; apply Hk; lia]|intros; lia].
    - assert (Nq : ~ quiet (Z.to_nat t) j).
      { intros (Q1 & Q2). assert (H : (c < j)%nat) by lia. specialize (Q2 (j - c - 1)%nat ltac:(lia)). rewrite (Hn H) in Q2. discriminate. }
      rewrite Hc. destruct (IH (Datatypes.S n) (if keeps j then Datatypes.S c else 0%nat) (Datatypes.S j)) as [(k & n' & c' & E & B & Q & Mn)|(E & Mn)].
      + destruct (keeps j); lia.
      + intros i Hi. destruct (Nat.eq_dec i j) as [->|Ni]; [destruct (keeps j); [reflexivity|lia]|]. destruct (keeps j); [apply Hk; lia|lia].
      + intros H. destruct (keeps j) eqn:Kj; [replace (Datatypes.S j - Datatypes.S c - 1)%nat with (j - c - 1)%nat by lia; apply Hn; lia|replace (Datatypes.S j - 0 - 1)%nat with j by lia; exact Kj].
      + left. exists k, n', c'. split; [exact E|]. split; [lia|]. split; [exact Q|]. intros k' Hk'. destruct (Nat.eq_dec k' j) as [->|]; [exact Nq|apply Mn; lia].
      + right. split; [exact E|]. intros k' Hk'. destruct (Nat.eq_dec k' j) as [->|]; [exact Nq|apply Mn; lia].
  Qed.
End OrdLoop.

Section C104.
  Context {S V W : Type} {ES : Eqb S} {EV : Eqb V} {EW : Eqb W}.
  Notation data := (dataset S V W XR).
  Notation result := (result S V W xr).
  Variables (b : bool) (f : option (V -> W -> W -> option R)) (ts : list (S * V * W)) (d : data).
  Hypothesis Hb : build b (real_imp f) ts = Ok d.
  Let R0 : ds_rep ts (real_imp f) d := build_rep _ _ _ _ Hb.
  Variables (a : alg XR) (p : prior).
  Hypothesis Hpar : params_ok a.
  Hypothesis Hdat : data_ok ts a.

  (** the exact trust scores after j rounds from the start x0 *)
  Definition trust_after (x0 : rscores) (j : nat) : S -> R := fst (rounds (step_of f ts a) x0 j).
  (** two assignments of scores put the sources in the same order, ties included *)
  Definition same_ranking (u v : S -> R) : Prop := forall s s', In s (sources ts) -> In s' (sources ts) -> (u s < u s' <-> v s < v s').
  (** none of the rounds k-t+1 ... k changed the ranking of the sources *)
  Definition settled (x0 : rscores) (t : Z) (k : nat) : Prop :=
    (t <= Z.of_nat k)%Z /\ forall j, (1 <= j <= k)%nat -> (Z.of_nat k - t < Z.of_nat j)%Z -> same_ranking (trust_after x0 (j - 1)) (trust_after x0 j).

  Definition keepsb (u v : S -> R) : bool := forallb (fun s => reqb (INR (rrank u (sources ts) s)) (INR (rrank v (sources ts) s))) (sources ts).
  Lemma keepsb_spec u v : keepsb u v = true <-> same_ranking u v.
  Proof.
    unfold keepsb. rewrite forallb_forall. split.
    - intros H. assert (E : forall s, In s (sources ts) -> rrank u (sources ts) s = rrank v (sources ts) s).
      { intros s Hs. apply INR_eq. specialize (H s Hs). destruct (reqb_spec (INR (rrank u (sources ts) s)) (INR (rrank v (sources ts) s))); [assumption|discriminate]. }
      assert (G : forall u v : S -> R, (forall s, In s (sources ts) -> rrank u (sources ts) s = rrank v (sources ts) s) -> forall s s', In s (sources ts) -> In s' (sources ts) -> u s < u s' -> v s < v s').
      { clear u v H E. intros u v E s s' Hs Hs' L. apply (rrank_lt u (sources ts) s s' Hs) in L. rewrite (E s Hs), (E s' Hs') in L.
        destruct (Rtotal_order (v s) (v s')) as [Q|[Q|Q]]; [exact Q| |].
        - exfalso. assert (Eq : rrank v (sources ts) s = rrank v (sources ts) s') by (unfold rrank; rewrite Q; reflexivity). lia.
        - exfalso. apply (rrank_lt v (sources ts) s' s Hs') in Q. lia. }
      intros s s' Hs Hs'. split; [now apply G|apply G; auto; intros; symmetry; auto].
    - intros H s Hs. rewrite (rrank_incr u v (sources ts) H s Hs). apply reqb_refl.
  Qed.
  Lemma same_sym u v : same_ranking u v <-> same_ranking v u.
  Proof. split; intros H s s' Hs Hs'; symmetry; auto. Qed.
  (* what the iterator is given in a round is ranked like the trusts before and after *)
  Lemma compared_ranking x : same_ranking (fst (compared f ts a x)) (snd (compared f ts a x)) <-> same_ranking (fst x) (fst (step_of f ts a x)).
  Proof.
    destruct a as [| |[] |[] |[] [] []|[]|]; cbn in Hpar; try contradiction; cbn [compared fst snd]; try apply same_sym; try tauto.
    assert (Q : same_ranking (total_belief ts (snd x)) (fst (step_of f ts UnboundedSums x))).
    { cbn [step_of]. unfold usums_step. cbv zeta. cbn [fst]. unfold downscale. intros s s' _ _. destruct (rltb _ _); [|tauto]. generalize (total_belief ts (snd x) s), (total_belief ts (snd x) s'). intros y z. split; intros; lra. }
    split; intros H s s' Hs Hs'; rewrite (H s s' Hs Hs'); [|symmetry]; now apply Q.
  Qed.
  Definition keeps (x0 : rscores) (i : nat) : bool := keepsb (fst (compared f ts a (rounds (step_of f ts a) x0 i))) (snd (compared f ts a (rounds (step_of f ts a) x0 i))).
  Lemma keeps_round x0 i : keeps x0 i = true <-> same_ranking (trust_after x0 i) (trust_after x0 (Datatypes.S i)).
  Proof. unfold keeps. rewrite keepsb_spec, compared_ranking. reflexivity. Qed.
  Lemma quiet_settled x0 t k : quiet (keeps x0) (Z.to_nat t) k <-> settled x0 t k.
  Proof.
    unfold quiet, settled. split; intros (H1 & H2); (split; [lia|]).
    - intros j Hj Ht. replace j with (Datatypes.S (j - 1)) at 2 by lia. apply keeps_round, H2. lia.
    - intros i Hi. apply keeps_round. replace i with (Datatypes.S i - 1)%nat at 1 by lia. apply H2; lia.
  Qed.
  Lemma ord_final t n c x : exists y, final (F:=XR) a (IOrd t n c) (denote ts x) = Ok y.
  Proof. destruct a; try (eexists; reflexivity). rewrite denote_ranks. eexists. reflexivity. Qed.

  (** C104. The run ends after the first round k at which the last t rounds have left the ranking of the sources as it was; and it never ends otherwise. *)
  Theorem C104_ordinal_run clock fuel t n c lg x0 : ts <> [] -> start ts a p = Some x0 ->
    (exists r o' k, run clock fuel (AObj a p (IOrd t n c) lg) d = (Ok r, o') /\ r_iterations r = Some k /\ (k < fuel)%nat /\ settled x0 t k /\ forall k', (k' < k)%nat -> ~ settled x0 t k') \/
    (fst (run clock fuel (AObj a p (IOrd t n c) lg) d) = Err OutOfFuel /\ forall k', (k' < fuel)%nat -> ~ settled x0 t k').
  Proof.
    intros NE E0. rewrite (run_char clock ts (real_imp f) d R0 NE), (pack_start b f ts d Hb NE a p Hpar), E0. cbn [option_map reset].
    pose proof (pack_start_good ts a p x0 Hpar E0) as G0. pose proof (pack_cmp b f ts d Hb NE a x0 Hpar Hdat G0) as C.
    assert (Ex : it_loop (cmp1 a d (denote ts x0)) (cmp2 a d (denote ts x0)) (stops a d (denote ts x0)) fuel (IOrd t 0 0) 0 =
                 it_loop (cmp1 a d (denote ts x0)) (cmp2 a d (denote ts x0)) (fun _ => false) fuel (IOrd t 0 0) 0).
    { apply it_loop_ext_ord; [reflexivity|]. intros k. apply (C k). }
    destruct (ord_loop (cmp1 a d (denote ts x0)) (cmp2 a d (denote ts x0)) (keeps x0)) with (t := t) (fuel := fuel) (n := 0%nat) (c := 0%nat) (j := 0%nat) as [(k & n' & c' & E & B & Q & Mn)|(E & Mn)]; try lia.
    - intros t' n' c' i. destruct (C i) as (-> & -> & _). cbn [compare]. unfold tvec. rewrite !ranking_fv, Iso.vall_eq_fv. reflexivity.
    - left. rewrite Ex, E. rewrite (proj1 (pack_scores b f ts d Hb NE a x0 Hpar Hdat G0 k)).
      destruct (ord_final t n' c' (rounds (step_of f ts a) x0 k)) as (y & Ey). rewrite Ey. eexists. eexists. exists k. split; [reflexivity|]. split; [reflexivity|]. split; [lia|].
      split; [now apply quiet_settled|]. intros k' Hk' Hs. apply (Mn k'); [lia|]. now apply quiet_settled.
    - right. rewrite Ex. destruct (it_loop _ _ (fun _ => false) fuel _ 0) as [[q k] it']. cbn [fst] in E. subst q. split; [reflexivity|].
      intros k' Hk' Hs. apply (Mn k'); [lia|]. now apply quiet_settled.
  Qed.
  (** In particular, of every run that returns. *)
  Theorem C104_ordinal_stops clock fuel t n c lg r o' : run clock fuel (AObj a p (IOrd t n c) lg) d = (Ok r, o') ->
    exists x0 k, start ts a p = Some x0 /\ r_iterations r = Some k /\ settled x0 t k /\ forall k', (k' < k)%nat -> ~ settled x0 t k'.
  Proof.
    intros H. assert (Hf : match a with TruthFinder _ _ t0 => is_fin t0 | _ => True end) by exact (params_fin a Hpar).
    destruct (run_has_start b f ts d Hb clock fuel a p (IOrd t n c) lg r o' Hf H) as (NE & x0 & E0).
    exists x0. destruct (C104_ordinal_run clock fuel t n c lg x0 NE E0) as [(r' & o'' & k & E & Ek & _ & Q & Mn)|(E & _)].
    - rewrite E in H. injection H as -> _. exists k. auto.
    - rewrite H in E. discriminate.
  Qed.
  (** A threshold of at most 0 ends the run before the first round. *)
  Theorem C104_nonpositive clock fuel t n c lg : ts <> [] -> p <> BadPrior -> (t <= 0)%Z -> (0 < fuel)%nat ->
    exists r, fst (run clock fuel (AObj a p (IOrd t n c) lg) d) = Ok r /\ r_iterations r = Some 0%nat.
  Proof.
    intros NE Hp Ht Hf. assert (E0 : exists x0, start ts a p = Some x0) by (clear Hdat; destruct a as [| |[] |[] |[] [] []|[]|]; cbn in Hpar; try contradiction; cbn [start]; try (eexists; reflexivity); destruct p; cbn [prior_spec option_map]; eauto; congruence).
    destruct E0 as (x0 & E0). assert (Q : settled x0 t 0) by (split; [lia|intros; lia]).
    destruct (C104_ordinal_run clock fuel t n c lg x0 NE E0) as [(r & o' & k & E & Ek & _ & _ & Mn)|(_ & Mn)].
    - exists r. split; [now rewrite E|]. destruct k; [exact Ek|]. exfalso. apply (Mn 0%nat); [lia|exact Q].
    - exfalso. apply (Mn 0%nat); [exact Hf|exact Q].
  Qed.
End C104.

(** Two sources that share no claim, the first with two claims: the ranking changes in the first round and never again, so a run with threshold t >= 1 does t + 1 rounds. *)
Module OrdStopExamples.
  Import ListNotations.
  Definition two : list (nat * nat * nat) := [(1, 0, 1); (1, 7, 1); (2, 8, 1)]%nat.
  Lemma two_builds : exists d : dataset nat nat nat XR, build false (real_imp None) two = Ok d.
  Proof. apply AlgExamples.strict_builds. unfold two, sv_pairs; cbn. repeat constructor; cbn; intuition congruence. Qed.
  Notation st := (step_of (S:=nat) (V:=nat) (W:=nat) None two UnboundedSums).
  Lemma step_two x : exists q, 0 < q /\ fst (st x) 1%nat = q * (snd x (0, 1)%nat + snd x (7, 1)%nat) /\ fst (st x) 2%nat = q * snd x (8, 1)%nat /\
    exists q', 0 < q' /\ snd (st x) (0, 1)%nat = q' * (snd x (0, 1)%nat + snd x (7, 1)%nat) /\ snd (st x) (7, 1)%nat = q' * (snd x (0, 1)%nat + snd x (7, 1)%nat) /\ snd (st x) (8, 1)%nat = q' * snd x (8, 1)%nat.
  Proof.
    cbn [step_of]. unfold usums_step. cbv zeta. cbn [fst snd]. unfold downscale.
    assert (B1 : forall g, total_belief two g 1%nat = g (0, 1)%nat + g (7, 1)%nat) by (intros g; unfold total_belief; change (claims_of two 1%nat) with [(0, 1); (7, 1)]%nat; cbn [rsum map fold_right]; lra).
    assert (B2 : forall g, total_belief two g 2%nat = g (8, 1)%nat) by (intros g; unfold total_belief; change (claims_of two 2%nat) with [(8, 1)]%nat; cbn [rsum map fold_right]; lra).
    assert (T1 : forall g, total_trust two g (0, 1)%nat = g 1%nat) by (intros g; unfold total_trust; change (supporters two (0, 1)%nat) with [1]%nat; cbn [rsum map fold_right]; lra).
    assert (T2 : forall g, total_trust two g (7, 1)%nat = g 1%nat) by (intros g; unfold total_trust; change (supporters two (7, 1)%nat) with [1]%nat; cbn [rsum map fold_right]; lra).
    assert (T3 : forall g, total_trust two g (8, 1)%nat = g 2%nat) by (intros g; unfold total_trust; change (supporters two (8, 1)%nat) with [2]%nat; cbn [rsum map fold_right]; lra).
    exists (if rltb 1000 (rmax (total_belief two (snd x)) (sources two)) then / 1000 else 1). split; [destruct (rltb _ _); lra|].
    rewrite ?T1, ?T2, ?T3, ?B1, ?B2. split; [destruct (rltb _ _); lra|]. split; [destruct (rltb _ _); lra|].
    exists (if rltb 1000 (rmax (total_trust two (total_belief two (snd x))) (claims two)) then / 1000 else 1). split; [destruct (rltb _ _); lra|].
    split; [destruct (rltb _ _); lra|]. split; destruct (rltb _ _); lra.
  Qed.
  Example rounds_done t : (1 <= t)%Z -> exists (d : dataset nat nat nat XR) r, build false (real_imp None) two = Ok d /\
    fst (run (fun _ => Fin 0) (2 + Z.to_nat t) (AObj UnboundedSums FIXED (IOrd t 0 0) None) d) = Ok r /\ r_iterations r = Some (Datatypes.S (Z.to_nat t)).
  Proof.
    intros Ht. destruct two_builds as (d & E). exists d.
    destruct (start two (@UnboundedSums (num XR)) FIXED) as [x0|] eqn:E0; [|discriminate].
    assert (I0 : fst x0 1%nat = fst x0 2%nat /\ 0 < snd x0 (8, 1)%nat /\ snd x0 (8, 1)%nat <= snd x0 (0, 1)%nat /\ snd x0 (8, 1)%nat <= snd x0 (7, 1)%nat).
    { cbn [start prior_spec option_map] in E0. injection E0 as <-. cbn [fst snd]. repeat split; lra. }
    assert (Inv : forall k, 0 < snd (rounds st x0 k) (8, 1)%nat /\ snd (rounds st x0 k) (8, 1)%nat <= snd (rounds st x0 k) (0, 1)%nat /\ snd (rounds st x0 k) (8, 1)%nat <= snd (rounds st x0 k) (7, 1)%nat).
    { induction k as [|k (K1 & K2 & K3)]; [cbn [rounds]; tauto|]. cbn [rounds]. destruct (step_two (rounds st x0 k)) as (q & _ & _ & _ & q' & Q & -> & -> & ->). split; [now apply Rmult_lt_0_compat|]. split; apply Rmult_le_compat_l; lra. }
    assert (Tr : forall k, trust_after None two UnboundedSums x0 (Datatypes.S k) 2%nat < trust_after None two UnboundedSums x0 (Datatypes.S k) 1%nat).
    { intros k. unfold trust_after. cbn [rounds]. destruct (Inv k) as (K1 & K2 & K3). destruct (step_two (rounds st x0 k)) as (q & Q & E1 & E2 & _). rewrite E1, E2. apply Rmult_lt_compat_l; [exact Q|lra]. }
    assert (Sr : sources two = [1; 2]%nat) by reflexivity.
    assert (Same : forall j, (2 <= j)%nat -> same_ranking two (trust_after None two UnboundedSums x0 (j - 1)) (trust_after None two UnboundedSums x0 j)).
    { intros j Hj. replace j with (Datatypes.S (Datatypes.S (j - 2))) by lia. replace (Datatypes.S (Datatypes.S (j - 2)) - 1)%nat with (Datatypes.S (j - 2)) by lia.
      pose proof (Tr (j - 2)%nat) as A. pose proof (Tr (Datatypes.S (j - 2))) as B. intros s s' Hs Hs'. rewrite Sr in Hs, Hs'. destruct Hs as [<-|[<-|[]]], Hs' as [<-|[<-|[]]]; split; intros; lra. }
    assert (Diff : ~ same_ranking two (trust_after None two UnboundedSums x0 0) (trust_after None two UnboundedSums x0 1)).
    { intros H. pose proof (Tr 0%nat) as A. specialize (H 2%nat 1%nat). rewrite Sr in H. specialize (H (or_intror (or_introl eq_refl)) (or_introl eq_refl)). apply H in A. unfold trust_after in A. cbn [rounds] in A. lra. }
    assert (Done : settled None two UnboundedSums x0 t (Datatypes.S (Z.to_nat t))) by (split; [lia|]; intros j Hj Hl; apply Same; lia).
    assert (Not : forall k, (k < Datatypes.S (Z.to_nat t))%nat -> ~ settled None two UnboundedSums x0 t k).
    { intros k Hk (H1 & H2). apply Diff. apply (H2 1%nat); lia. }
    destruct (C104_ordinal_run false None two d E UnboundedSums FIXED I I (fun _ => Fin 0) (2 + Z.to_nat t) t 0 0 None x0 ltac:(discriminate) E0) as [(r & o' & k & Er & Ek & _ & Q & Mn)|(_ & Mn)].
    - exists r. split; [exact E|]. split; [now rewrite Er|]. rewrite Ek. f_equal. destruct (Nat.lt_trichotomy k (Datatypes.S (Z.to_nat t))) as [L|[L|L]]; [exfalso; exact (Not k L Q)|exact L|exfalso; exact (Mn _ L Done)].
    - exfalso. apply (Mn (Datatypes.S (Z.to_nat t))); [lia|exact Done].
  Qed.
End OrdStopExamples.
