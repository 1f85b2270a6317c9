(** C112: UnboundedSums in doubles stops after as many rounds as in exact arithmetic, with the same ranks, if the exact scores are well separated. *)
From Coq Require Import ZArith Reals Lia Lra Permutation.
From Flocq Require Import Core IEEE754.BinarySingleNaN.
From Verif Require Import Base Num Sparse Spec SpecAlg Dataset DatasetProofs DatasetRep Iterators Algorithms AlgTF Driver Ranking Rounds AlgRep AlgPack Results Float Accuracy PropsAccuracy Mono64 PropsData PropsIter PropsRun PropsAlg PropsFloat PropsVote64
  PropsAvlog64 PropsUsums64 PropsOrd PropsOrdStop PropsOrdStop64 PropsUsumsStop64 PropsCoherence Close PropsInvestAcc64 PropsUsumsAcc64.
Local Open Scope R_scope.

(** ** Specification: the scores u of the sources are far apart, except those of sources making the same claims; those of the claims, except for
    claims made by the same sources *)
Definition sources_apart {S V W} {ES : Eqb S} {EV : Eqb V} {EW : Eqb W} (ts : list (S * V * W)) (e : R) (u : S -> R) : Prop :=
  forall s s', In s (sources ts) -> In s' (sources ts) -> claims_of ts s = claims_of ts s' \/ far e (u s) (u s') \/ far e (u s') (u s).
Definition claims_apart {S V W} {ES : Eqb S} {EV : Eqb V} {EW : Eqb W} (ts : list (S * V * W)) (e : R) (u : V * W -> R) : Prop :=
  forall a a', In a (claims ts) -> In a' (claims ts) -> supporters ts a = supporters ts a' \/ far e (u a) (u a') \/ far e (u a') (u a).

Section C112.
  Context {S V W : Type} {ES : Eqb S} {EV : Eqb V} {EW : Eqb W}.
  Variable L : libm.
  Notation F := (B64 L).
  Notation claim := (V * W)%type.
  Variable ts : list (S * V * W).
  Notation NS := (length (sources ts)).
  Notation NC := (length (claims ts)).
  Notation plain := (rounds (plain_step ts)).
  Notation KK k := (INR ((k + 1) * (NS + NC + 1))).

  Section Order.
    Variables (p : prior) (g : claim -> b64) (y : claim -> R) (m : Z) (k : nat).
    Hypothesis Eg : prior_in_doubles ts p = Some g.
    Hypothesis Ey : prior_spec ts p = Some y.
    Hypothesis Rg : in_range m NS NC k.
    Notation x64 := (rounds64 ts ((fun _ => ofZ64 0), g)).
    Notation xR := (plain ((fun _ => 0), y)).
    Hypothesis Apart : forall j, (1 <= j <= k)%nat -> sources_apart ts (usums_error NS NC j) (fst (xR j)).

    Lemma err_mono j : (j <= k)%nat -> 0 < usums_error NS NC j <= 1.
    Proof.
      intros Hj. destruct Rg as (_ & _ & _ & _ & He). unfold usums_error in *. assert (P : 0 < 2 ^ 51) by (apply pow_lt; lra). split; [apply Rdiv_lt_0_compat; [apply lt_0_INR; lia|exact P]|].
      eapply Rle_trans; [|exact He]. apply Rmult_le_compat_r; [left; now apply Rinv_0_lt_compat|]. apply le_INR. nia.
    Qed.
    Lemma range_le j : (j <= k)%nat -> ((2 * m + 10) * Z.of_nat j + 2 * m <= 900)%Z.
    Proof. intros Hj. destruct Rg as (Hm & _ & _ & H & _). nia. Qed.
    (** the doubles of round j order the sources as the exact scores do *)
    Lemma order_old j s s' : (j <= k)%nat -> In s (sources ts) -> In s' (sources ts) -> Bltb (fst (x64 j) s) (fst (x64 j) s') = true <-> fst (xR j) s < fst (xR j) s'.
    Proof.
      intros Hj Hs Hs'. destruct Rg as (Hm & H1 & H2 & H3 & H4). destruct j as [|j].
      - cbn [rounds64 rounds fst]. rewrite (ltb64 _ _ _ _ zero64 zero64). destruct (rltb_spec 0 0); [lra|]. split; [discriminate|lra].
      - destruct (C111_usums_scores ts m Hm H1 H2 g y p Eg Ey (Datatypes.S j) (range_le _ Hj) (proj2 (err_mono _ Hj))) as ((i & Hi) & _).
        apply (far_order _ (1000 ^ i) _ (fst (xR (Datatypes.S j))) (sources ts) (proj1 (err_mono _ Hj)) ltac:(apply pow_lt; lra) Hi s s' Hs Hs').
        destruct (Apart (Datatypes.S j) ltac:(lia) s s' Hs Hs') as [Q|Q]; [left|now right]. split; cbn [rounds64 usums64 rounds plain_step fst]; [unfold by_1000, new_trust|unfold total_belief]; now rewrite Q.
    Qed.
    (** ... and so do the new trust scores, before they are divided *)
    Lemma order_new j s s' : (j < k)%nat -> In s (sources ts) -> In s' (sources ts) -> Bltb (new_trust ts (x64 j) s) (new_trust ts (x64 j) s') = true <-> fst (xR (Datatypes.S j)) s < fst (xR (Datatypes.S j)) s'.
    Proof.
      intros Hj Hs Hs'. destruct Rg as (Hm & H1 & H2 & H3 & H4). assert (He := err_mono (Datatypes.S j) Hj). pose proof (range_le (Datatypes.S j) Hj) as Hr.
      destruct (near_rounds ts m Hm H1 H2 g y p Eg Ey j (range_le j ltac:(lia))) as (_ & (i & Hi)).
      assert (Hn : forall s, In s (sources ts) -> accurate (usums_error NS NC (Datatypes.S j)) (fst (xR (Datatypes.S j)) s / 1000 ^ i) (new_trust ts (x64 j) s)).
      { intros z Hz. assert (T : dbl (- (2 * m + 1 + 10 * Z.of_nat j)) (m + 1 + 2 * m * Z.of_nat j + m) (KK j + INR (length (claims_of ts z))) (new_trust ts (x64 j) z) (total_belief ts (fun c => snd (xR j) c / 1000 ^ i) z)).
        { apply (dbl_sum_m m (- (2 * m + 1 + 10 * Z.of_nat j)) (m + 1 + 2 * m * Z.of_nat j) (KK j)); [exact Hm|lia|lia|now apply some_claim|pose proof (len_claims ts z); lia|]. intros c Hc. apply Hi. unfold claims_of in Hc. apply filter_In in Hc. tauto. }
        rewrite (proj1 (step_scal ts (snd (xR j)) (1000 ^ i))) in T. destruct T as (r & Hr' & _ & C).
        assert (Ee : usums_error NS NC (Datatypes.S j) = 2 * (KK (Datatypes.S j) * unit52)) by (unfold usums_error; rewrite unit52_eq; replace (2 ^ 52) with (2 * 2 ^ 51) by (cbn; ring); field).
        rewrite Ee in *. apply (close_accurate _ _ _ r); [lra|exact Hr'|]. refine (close_mono _ _ _ _ _ C). rewrite <- plus_INR. apply le_INR. pose proof (len_claims ts z). nia. }
      apply (far_order _ (1000 ^ i) _ (fst (xR (Datatypes.S j))) (sources ts) (proj1 He) ltac:(apply pow_lt; lra) Hn s s' Hs Hs').
      destruct (Apart (Datatypes.S j) ltac:(lia) s s' Hs Hs') as [Q|Q]; [left|now right]. split; cbn [rounds plain_step fst]; [unfold new_trust|unfold total_belief]; now rewrite Q.
    Qed.
    Lemma same_iff j : (j < k)%nat -> same_ranking64 ts (x64 j) <-> same_ranking ts (fst (xR j)) (fst (xR (Datatypes.S j))).
    Proof.
      intros Hj. unfold same_ranking64, same_ranking. split; intros H s s' Hs Hs'; specialize (H s s' Hs Hs').
      - rewrite <- (order_old j s s' ltac:(lia) Hs Hs'), <- (order_new j s s' Hj Hs Hs'). now rewrite H.
      - rewrite <- (order_old j s s' ltac:(lia) Hs Hs'), <- (order_new j s s' Hj Hs Hs') in H. destruct (Bltb (fst (x64 j) s) (fst (x64 j) s')), (Bltb (new_trust ts (x64 j) s) (new_trust ts (x64 j) s')); try reflexivity; [symmetry; now apply H|now apply H].
    Qed.
    Lemma same_multiple f (j : nat) : same_ranking ts (trust_after f ts UnboundedSums ((fun _ => 0), y) j) (trust_after f ts UnboundedSums ((fun _ => 0), y) (Datatypes.S j)) <-> same_ranking ts (fst (xR j)) (fst (xR (Datatypes.S j))).
    Proof.
      unfold trust_after. cbn [step_of]. pose proof (usums_multiple ts ((fun _ => 0), y)) as M. destruct (M j) as (q1 & _ & P1 & _ & E1 & _). destruct (M (Datatypes.S j)) as (q2 & _ & P2 & _ & E2 & _).
      assert (Q : forall (q : R) u v, 0 < q -> q * u < q * v <-> u < v) by (intros q u v P; split; intros; [now apply (Rmult_lt_reg_l q)|now apply Rmult_lt_compat_l]).
      unfold same_ranking. split; intros H s s' Hs Hs'; specialize (H s s' Hs Hs').
      - rewrite !E1, !E2, !Q in H by assumption. exact H.
      - rewrite !E1, !E2, !Q by assumption. exact H.
    Qed.
    Lemma settled_iff f t k' : (k' <= k)%nat -> settled64 ts ((fun _ => ofZ64 0), g) t k' <-> settled f ts UnboundedSums ((fun _ => 0), y) t k'.
    Proof.
      intros Hk. unfold settled64, settled. split; intros (H1 & H2); (split; [exact H1|]); intros j Hj Hl.
      - destruct j as [|j]; [lia|]. replace (Datatypes.S j - 1)%nat with j by lia. apply same_multiple, same_iff; [lia|]. apply H2; lia.
      - apply same_iff; [lia|]. apply (same_multiple f). specialize (H2 (Datatypes.S j) ltac:(lia) ltac:(lia)). replace (Datatypes.S j - 1)%nat with j in H2 by lia. exact H2.
    Qed.
  End Order.

  Variables (b : bool) (f : option (V -> W -> W -> option b64)) (d : dataset S V W F).
  Hypothesis Hb : build (F:=F) b f ts = Ok d.
  Variables (b' : bool) (f' : option (V -> W -> W -> option R)) (d' : dataset S V W XR).
  Hypothesis Hb' : build (F:=XR) b' (real_imp f') ts = Ok d'.
  (** C112. *)
  Theorem C112_same_run clock clock' fuel p t n c lg n' c' lg' r y k m : fst (run (F:=F) clock fuel (AObj UnboundedSums p (IOrd t n c) lg) d) = Ok r -> (0 < t)%Z -> prior_spec ts p = Some y ->
    r_iterations r = Some k -> in_range m NS NC k -> (forall j, (1 <= j <= k)%nat -> sources_apart ts (usums_error NS NC j) (fst (plain ((fun _ => 0), y) j))) ->
    exists r', fst (run (F:=XR) clock' fuel (AObj UnboundedSums p (IOrd t n' c') lg') d') = Ok r' /\ r_iterations r' = Some k /\
      (forall s, In s (sources ts) -> exists q : nat, trust_of r s = Some (ofZ64 (Z.of_nat q)) /\ trust_of r' s = Some (Fin (INR q))) /\
      (claims_apart ts (usums_error NS NC k) (snd (plain ((fun _ => 0), y) k)) -> forall a, In a (claims ts) -> exists q : nat, belief_of r a = Some (ofZ64 (Z.of_nat q)) /\ belief_of r' a = Some (Fin (INR q))).
  Proof.
    intros H Ht Ep Ek Rg Ap. pose proof (err_mono m k Rg k (Nat.le_refl k)) as (He0 & He).
    destruct (ran L b f ts d Hb _ _ _ _ _ _ _ _ _ _ H Ep Ek He) as (g & Eg & D1 & D2).
    assert (NE : ts <> []). { intros E0. destruct (proj1 (C26_empty (F:=F) b f ts d Hb clock fuel (AObj UnboundedSums p (IOrd t n c) lg)) E0) as (Q & _). rewrite Q in H. discriminate. }
    assert (Few : (Z.of_nat NS < 2 ^ 53)%Z /\ (Z.of_nat NC < 2 ^ 53)%Z) by exact (few_labels ts k He).
    pose proof (C109_usums_stops64 L b f ts d Hb (proj1 Few) (proj2 Few) NE clock fuel p t n c lg g Eg) as Q. cbv zeta in Q. rewrite H in Q. destruct Q as (k1 & Ek1 & Hk & S1 & S2 & _). rewrite Ek in Ek1. injection Ek1 as <-.
    assert (E0 : start ts (@UnboundedSums (num XR)) p = Some ((fun _ => 0), y)) by (cbn [start]; rewrite Ep; reflexivity).
    assert (Si : forall k', (k' <= k)%nat -> settled64 ts ((fun _ => ofZ64 0), g) t k' <-> settled f' ts UnboundedSums ((fun _ => 0), y) t k') by (intros k' Hk'; exact (settled_iff p g y m k Eg Ep Rg Ap f' t k' Hk')).
    destruct (C104_ordinal_run b' f' ts d' Hb' UnboundedSums p Logic.I Logic.I clock' fuel t n' c' lg' _ NE E0) as [(r' & o' & k' & E & Ek' & _ & Q1 & Q2)|(_ & Q)].
    2: { exfalso. apply (Q k Hk). apply Si; [lia|exact S1]. }
    assert (k' = k) as ->. { destruct (lt_eq_lt_dec k' k) as [[Lt|Eq]|Lt]; [exfalso; apply (S2 k' Lt), Si; [lia|exact Q1]|exact Eq|exfalso; apply (Q2 k Lt), Si; [lia|exact S1]]. }
    exists r'. split; [rewrite E; reflexivity|]. split; [exact Ek'|].
    destruct (C40_ranks_of_plain_recurrence b' f' ts d' Hb' clock' fuel p t n' c' lg' r' o' E) as (z0 & k2 & E2 & Ek2 & Rr). rewrite E0 in E2. injection E2 as <-. rewrite Ek' in Ek2. injection Ek2 as <-. split.
    - intros s Hs. exists (rrank (fst (plain ((fun _ => 0), y) k)) (sources ts) s). split; [|exact (PropsAlg.reports_trust ts r' _ s Rr Hs)].
      apply (dense_exact _ _ _ _ D1); [|exact Hs]. intros u v Hu Hv. exact (order_old p g y m k Eg Ep Rg Ap k u v (Nat.le_refl k) Hu Hv).
    - intros Ac a Ha. exists (rrank (snd (plain ((fun _ => 0), y) k)) (claims ts) a). split; [|exact (PropsAlg.reports_belief ts r' _ a Rr Ha)].
      destruct k as [|k]; [exfalso; destruct S1 as (S1 & _); lia|].
      refine (proj2 (C111_usums_ranks L b f ts d Hb clock fuel p t n c lg r y k m H Ep Ek Rg _) a Ha). split; [exact (Ap (Datatypes.S k) ltac:(lia))|exact Ac].
  Qed.
End C112.

(** The dataset of C109 and C111: threshold 3 means four rounds, in doubles and in exact arithmetic, with the same ranks. *)
Module UsumsRun64Examples.
  Import UsumsStop64Examples.
  Notation x k := (rounds (plain_step ts0) ((fun _ => 0), n_supporters ts0) k).
  Lemma err_small j : (j <= 4)%nat -> 0 <= usums_error 2 3 j <= 1 / 10.
  Proof.
    intros Hj. unfold usums_error. assert (P : 0 < 2 ^ 51) by (apply pow_lt; lra). split; [apply Rmult_le_pos; [apply pos_INR|left; now apply Rinv_0_lt_compat]|].
    assert (INR ((j + 1) * (2 + 3 + 1)) <= 30). { replace 30 with (INR 30) by (rewrite INR_IZR_INZ; reflexivity). apply le_INR. lia. }
    apply (Rmult_le_reg_r (2 ^ 51)); [exact P|]. unfold Rdiv. rewrite Rmult_assoc, Rinv_l by lra. lra.
  Qed.
  Lemma apart j : (1 <= j <= 4)%nat -> sources_apart ts0 (usums_error (length (sources ts0)) (length (claims ts0)) j) (fst (x j)).
  Proof.
    change (length (sources ts0)) with 2%nat. change (length (claims ts0)) with 3%nat. intros Hj. pose proof (err_small j ltac:(lia)) as He. set (e := usums_error 2 3 j) in *. destruct j as [|j]; [lia|].
    destruct (UsumsAcc64Examples.exact_trust j) as (T1 & T2). assert (P : 2 <= 2 ^ Datatypes.S j). { cbn [pow]. pose proof (pow_R1_Rle 2 j ltac:(lra)). lra. }
    assert (A : far e 1 (2 ^ Datatypes.S j)) by (unfold far; nra).
    assert (Ss : sources ts0 = [1; 2]%nat) by reflexivity. intros u v Hu Hv. rewrite Ss in Hu, Hv. cbn [In] in Hu, Hv.
    destruct Hu as [<-|[<-|[]]], Hv as [<-|[<-|[]]]; rewrite ?T1, ?T2; auto.
  Qed.
  Lemma builds : exists d, build (F:=XR) false None ts0 = Ok d.
  Proof.
    destruct (build_strict (F:=XR) None ts0) as [(_ & _ & d & E & _)|[(_ & N & _)|(s & x & H & _)]]; [exists d; exact E|exfalso|exfalso].
    - apply N. intros c c' q _ _ H. unfold imp_val in H. destruct (_ && _)%bool; discriminate.
    - apply (first_repeat_not_NoDup _ _ _ H). unfold ts0, sv_pairs; cbn. repeat constructor; cbn; intuition congruence.
  Qed.
  Example four_in_both : exists d d' r r', build (F:=F) false None ts0 = Ok d /\ build (F:=XR) false None ts0 = Ok d' /\
    fst (run (F:=F) (fun _ => ofZ64 0) 10 (AObj UnboundedSums COUNT (IOrd 3 0 0) None) d) = Ok r /\ fst (run (F:=XR) (fun _ => Fin 0) 10 (AObj UnboundedSums COUNT (IOrd 3 0 0) None) d') = Ok r' /\
    r_iterations r' = Some 4%nat /\ exists q : nat, trust_of r 1%nat = Some (ofZ64 (Z.of_nat q)) /\ trust_of r' 1%nat = Some (Fin (INR q)).
  Proof.
    destruct (FloatExamples.strict_builds64 ts0) as [d E]; [unfold ts0, sv_pairs; cbn; repeat constructor; cbn; intuition congruence|].
    destruct builds as [d' E'].
    pose proof checked as C. unfold check in C. rewrite E in C. exists d, d'. pose proof (C112_same_run FloatExamples.lm ts0 false None d E false None d' E' (fun _ => ofZ64 0) (fun _ => Fin 0) 10 COUNT 3 0 0 None 0 0 None) as Q.
    destruct (fst (run (F:=F) (fun _ => ofZ64 0) 10 (AObj UnboundedSums COUNT (IOrd 3 0 0) None) d)) as [r|e]; [|discriminate C]. apply (proj1 (beq_true _ _)) in C.
    destruct (Q r (n_supporters ts0) 4%nat 2%Z eq_refl ltac:(lia) eq_refl C UsumsAcc64Examples.range apart) as (r' & R1 & R2 & R3 & _). exists r, r'.
    repeat (split; [first [exact E|exact E'|exact eq_refl|exact R1|exact R2]|]). apply R3. apply mem_In. reflexivity.
  Qed.
End UsumsRun64Examples.
