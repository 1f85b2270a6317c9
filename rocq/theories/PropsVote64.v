(** C63: majority voting in double arithmetic gives the correctly rounded beliefs, and rounding neither creates nor hides ties. *)
From Coq Require Import Reals Lra.
From Flocq Require Import Core IEEE754.BinarySingleNaN.
From Verif Require Import Base Num Sparse Spec SpecAlg Dataset DatasetProofs DatasetRep Iterators Algorithms Driver Rounds Ranking Results
  AlgRep PropsData PropsIter PropsRun PropsAlg Float PropsFloat PropsResult.
Local Open Scope R_scope.

(** ** quotients of small integers *)
Lemma ulp_below_one x : 0 < x < 1 -> ulp radix2 fexp64 x <= bpow radix2 (-53).
Proof.
  intros H. rewrite ulp_neq_0 by lra. apply bpow_le. unfold cexp, SpecFloat.fexp, SpecFloat.emin.
  assert (M : (mag radix2 x <= 0)%Z) by (apply mag_le_bpow; [lra|rewrite Rabs_pos_eq by lra; change (bpow radix2 0) with 1; lra]). lia.
Qed.
Lemma rnd_error x : 0 < x <= 1 -> x = 1 \/ Rabs (rnd x - x) <= bpow radix2 (-54).
Proof.
  intros [H0 [H1|H1]]; [right|now left]. pose proof (error_le_half_ulp radix2 fexp64 (fun n => negb (Z.even n)) x) as Q. pose proof (ulp_below_one x (conj H0 H1)) as U.
  change (bpow radix2 (-53)) with (bpow radix2 (1 + -54)) in U. rewrite bpow_plus in U. change (bpow radix2 1) with 2 in U. refine (Rle_trans _ _ _ Q _). lra.
Qed.
Lemma rnd_error' x : 0 < x <= 1 -> Rabs (rnd x - x) <= bpow radix2 (-54).
Proof.
  intros H. destruct (rnd_error x H) as [->|Q]; [|exact Q]. rewrite (rnd_id 1 fmt_1). unfold Rminus. rewrite Rplus_opp_r, Rabs_R0. apply bpow_ge_0.
Qed.
Lemma rnd_votes_lt (n n' m : nat) : (0 < n < n')%nat -> (n' <= m)%nat -> (Z.of_nat m < 2 ^ 53)%Z -> rnd (INR n / INR m) < rnd (INR n' / INR m).
Proof.
  intros H Hm Hc. assert (Pm : 0 < INR m) by (apply lt_0_INR; lia). assert (Pn : 0 < INR n) by (apply lt_0_INR; lia).
  assert (L : INR n + 1 <= INR n') by (rewrite <- S_INR; apply le_INR; lia). assert (Lm : INR n' <= INR m) by (apply le_INR; lia).
  assert (Up : forall k, 0 < k <= INR m -> 0 < k / INR m <= 1) by (intros k Hk; split; [apply Rdiv_lt_0_compat; lra|apply (Rmult_le_reg_r (INR m)); [exact Pm|]; unfold Rdiv; rewrite Rmult_assoc, Rinv_l; lra]).
  pose proof (rnd_error' _ (Up (INR n) ltac:(lra))) as E1. pose proof (rnd_error' _ (Up (INR n') ltac:(lra))) as E2.
  apply Rabs_le_inv in E1, E2.
  assert (G : INR n' / INR m - INR n / INR m >= / INR m).
  { unfold Rdiv. rewrite <- Rmult_minus_distr_r. rewrite <- (Rmult_1_l (/ INR m)) at 2. apply Rle_ge, Rmult_le_compat_r; [left; now apply Rinv_0_lt_compat|lra]. }
  assert (B : bpow radix2 (-53) < / INR m).
  { change (-53)%Z with (Z.opp 53). rewrite bpow_opp. apply Rinv_lt_contravar; [apply Rmult_lt_0_compat; [exact Pm|apply bpow_gt_0]|]. rewrite INR_IZR_INZ. apply (IZR_lt _ (2 ^ 53)). exact Hc. }
  change (bpow radix2 (-53)) with (bpow radix2 (1 + -54)) in B. rewrite bpow_plus in B. change (bpow radix2 1) with 2 in B. lra.
Qed.
(** adding up ones is exact *)
Lemma count_exact {A} (l : list A) (k : nat) a : (Z.of_nat (k + length l) <= 2 ^ 53)%Z -> isf a (INR k) ->
  isf (fold_left (Bplus mode_NE) (map (fun _ => Bmult mode_NE (ofZ64 1) (ofZ64 1)) l) a) (INR (k + length l)).
Proof.
  revert k a. induction l as [|x l IH]; intros k a Hk Ha; cbn [length] in *; [now rewrite Nat.add_0_r|]. cbn [map fold_left].
  replace (k + S (length l))%nat with (S k + length l)%nat by lia. apply IH; [lia|]. rewrite S_INR.
  assert (Fk : generic_format radix2 fexp64 (INR k + 1)) by (rewrite <- S_INR, INR_IZR_INZ, <- (Rmult_1_r (IZR _)); change 1 with (bpow radix2 0); apply fmt_int; lia).
  rewrite <- (rnd_id _ Fk). apply (add64 _ _ _ _ (INR k + 1)).
  - exact Ha.
  - apply one_mul64; [exact one64|lra].
  - apply pos_INR.
  - lra.
  - exact Fk.
  - lra.
  - rewrite <- S_INR. apply Rle_lt_trans with (bpow radix2 53); [rewrite INR_IZR_INZ; apply (IZR_le _ (2 ^ 53)); lia|apply bpow_lt; lia].
Qed.

Section C63.
  Context {S V W : Type} {ES : Eqb S} {EV : Eqb V} {EW : Eqb W}.
  Variable L : libm.
  Notation F := (B64 L).
  Notation data := (dataset S V W F).
  Notation claim := (V * W)%type.
  Notation result := (result S V W b64).
  Variables (b : bool) (f : option (V -> W -> W -> option F)) (ts : list (S * V * W)) (d : data).
  Hypothesis Hb : build (F:=F) b f ts = Ok d.
  Hypothesis Small_s : (Z.of_nat (length (sources ts)) < 2 ^ 53)%Z.
  Let R0 : ds_rep (F:=F) ts f d := build_rep _ _ _ _ Hb.
  Notation votes c := (length (supporters ts c)).

  Lemma votes_small c : (Z.of_nat (votes c) < 2 ^ 53)%Z.
  Proof. assert (Q : forall (p : S -> bool) l, (length (filter p l) <= length l)%nat) by (intros p l; induction l as [|x l IH]; cbn; [lia|destruct (p x); cbn; lia]). pose proof (Q (fun s => says ts s c) (sources ts)). unfold supporters. lia. Qed.
  Lemma votes64 c : isf (tt64 ts (fun _ => ofZ64 1) c) (INR (votes c)).
  Proof. unfold tt64. apply (count_exact (supporters ts c) 0); [pose proof (votes_small c); cbn [Nat.add]; lia|exact zero64]. Qed.
  Lemma votes_pos c : In c (claims ts) -> (0 < votes c)%nat.
  Proof. intros Hc. destruct (supporters_ne ts c Hc) as [s Hs]. destruct (supporters ts c); [destruct Hs|cbn; lia]. Qed.
  Notation m := (rmax (n_supporters ts) (claims ts)).
  Lemma max_votes : ts <> [] -> exists c0, In c0 (claims ts) /\ m = INR (votes c0) /\ forall c, In c (claims ts) -> (votes c <= votes c0)%nat.
  Proof.
    intros NE. destruct (rmax_In (n_supporters ts) (claims ts) (cl_ne ts NE)) as (c0 & H0 & E). exists c0. split; [exact H0|]. split; [exact E|]. intros c Hc.
    pose proof (rmax_ge (n_supporters ts) (claims ts) c Hc) as G. rewrite E in G. unfold n_supporters in G. now apply INR_le.
  Qed.

  Lemma voting_reports clock r : voting_run (F:=F) clock d = Ok r -> ts <> [] /\ exists g, reports ts r (fun _ => ofZ64 1) g /\ forall c, In c (claims ts) -> isf (g c) (rnd (INR (votes c) / m)).
  Proof.
    intros H. assert (NE : ts <> []).
    { intros Q. pose proof Hb as Hb0. rewrite Q in Hb0. destruct (C26_empty (F:=F) b f [] d Hb0 clock 0 (AObj Sums FIXED (IFixed 0 0) None)) as [A _]. destruct (A eq_refl) as (_ & _ & A'). rewrite A' in H. discriminate. }
    destruct (max_votes NE) as (c0 & H0 & Em & Mx). unfold voting_run in H. destruct (Nat.eqb_spec (num_claims d) 0) as [Z|_]; [now apply (nc_pos ts f d R0 NE) in Z|].
    assert (Sc : source_counts (F:=F) d = map (tt64 ts (fun _ => ofZ64 1)) (claims ts)).
    { unfold source_counts. rewrite (rep_ns _ _ _ R0), (ones64 L). exact (scT64 L b f ts d Hb (fun _ => ofZ64 1)). }
    assert (Fin : forall x, In x (map (tt64 ts (fun _ => ofZ64 1)) (claims ts)) -> exists q, isf x q) by (intros x Hx; apply in_map_iff in Hx; destruct Hx as (c & <- & _); eexists; apply votes64).
    destruct (pymax64 L (map (tt64 ts (fun _ => ofZ64 1)) (claims ts))) as (mx & q & E1 & Hq & Hin & Hge); [|exact Fin|].
    { pose proof (cl_ne ts NE). destruct (claims ts); [congruence|discriminate]. }
    assert (Eq : q = INR (votes c0)).
    { apply Rle_antisym.
      - apply in_map_iff in Hin. destruct Hin as (c & <- & Hc). rewrite (isf_fun _ _ _ Hq (votes64 c)). apply le_INR. now apply Mx.
      - apply (Hge (tt64 ts (fun _ => ofZ64 1) c0)); [now apply in_map|apply votes64]. }
    subst q. rewrite Sc, (npmax64 L _ Fin), E1 in H. unfold vdivs in H. rewrite map_map in H.
    assert (Es : repeat (@n_ofZ F 1) (num_sources d) = map (fun _ => ofZ64 1) (sources ts)) by (rewrite (rep_ns _ _ _ R0); apply (ones64 L)).
    rewrite Es in H. rewrite (trust_dict_vec ts f d R0), (belief_dict_vec ts f d R0) in H; [|rewrite map_length; symmetry; apply (rep_nc _ _ _ R0)|rewrite map_length; symmetry; apply (rep_ns _ _ _ R0)].
    injection H as H. pose proof (reports64 L ts r (fun _ => ofZ64 1) (fun c => Bdiv mode_NE (tt64 ts (fun _ => ofZ64 1) c) mx)) as Rp.
    split; [exact NE|]. eexists. split; [apply Rp; rewrite <- H; reflexivity|]. intros c Hc. rewrite Em.
      assert (Pm : 0 < INR (votes c0)) by (apply lt_0_INR; now apply votes_pos). assert (Lc : INR (votes c) <= INR (votes c0)) by (apply le_INR; now apply Mx).
      assert (Q : 0 <= INR (votes c) / INR (votes c0) <= 1).
      { split; [apply Rmult_le_pos; [apply pos_INR|left; now apply Rinv_0_lt_compat]|]. apply (Rmult_le_reg_r (INR (votes c0))); [exact Pm|]. unfold Rdiv. rewrite Rmult_assoc, Rinv_l; lra. }
      apply (div64 _ _ _ _ 1); [apply votes64|exact Hq|lra|apply Q|exact fmt_1|apply Q|change 1 with (bpow radix2 0); apply bpow_lt; lia].
  Qed.
  (** Every trust is 1.0; the belief in a claim is the double nearest to (its votes) / (the most votes of any claim). *)
  Theorem C63_correctly_rounded clock r : voting_run (F:=F) clock d = Ok r ->
    (forall s, In s (sources ts) -> exists v, trust_of r s = Some v /\ isf v 1) /\
    (forall c, In c (claims ts) -> exists v, belief_of r c = Some v /\ isf v (rnd (INR (votes c) / m))).
  Proof.
    intros H. destruct (voting_reports clock r H) as (_ & g & (Rt & Rb & _) & Hg). split.
    - intros s Hs. exists (ofZ64 1). rewrite Rt. apply mem_In in Hs. rewrite Hs. split; [reflexivity|exact one64].
    - intros c Hc. exists (g c). rewrite Rb. pose proof (proj2 (mem_In c (claims ts)) Hc) as M. rewrite M. split; [reflexivity|now apply Hg].
  Qed.
  (** In doubles, too, a claim is believed less than another exactly if it has fewer votes, and equally exactly if it has equally many. *)
  Theorem C63_no_false_ties clock r c c' v v' : voting_run (F:=F) clock d = Ok r -> belief_of r c = Some v -> belief_of r c' = Some v' ->
    (Bltb v v' = true <-> (votes c < votes c')%nat) /\ (Beqb v v' = true <-> votes c = votes c').
  Proof.
    intros H Hv Hv'. destruct (voting_reports clock r H) as (NE & g & (_ & Rb & _) & Hg).
    assert (In1 : forall c v, belief_of r c = Some v -> In c (claims ts) /\ v = g c).
    { intros z vz Hz. rewrite Rb in Hz. destruct (mem z (claims ts)) eqn:M; [|discriminate]. injection Hz as <-. split; [now apply mem_In|reflexivity]. }
    destruct (In1 _ _ Hv) as [Hc ->]. destruct (In1 _ _ Hv') as [Hc' ->]. rewrite (ltb64 _ _ _ _ (Hg c Hc) (Hg c' Hc')), (eqb64 _ _ _ _ (Hg c Hc) (Hg c' Hc')).
    destruct (max_votes NE) as (c0 & H0 & Em & Mx). rewrite Em. pose proof (votes_pos c Hc) as P1. pose proof (votes_pos c' Hc') as P2.
    pose proof (Mx c Hc) as M1. pose proof (Mx c' Hc') as M2. pose proof (votes_small c0) as Sm.
    pose proof (rnd_votes_lt (votes c) (votes c') (votes c0)) as A1. pose proof (rnd_votes_lt (votes c') (votes c) (votes c0)) as A2.
    destruct (lt_eq_lt_dec (votes c) (votes c')) as [[Lt|Eq]|Gt].
    - specialize (A1 ltac:(lia) M2 Sm). destruct (rltb_spec (rnd (INR (votes c) / INR (votes c0))) (rnd (INR (votes c') / INR (votes c0)))); [|lra].
      destruct (reqb_spec (rnd (INR (votes c) / INR (votes c0))) (rnd (INR (votes c') / INR (votes c0)))); [lra|]. split; split; intros; try lia; try reflexivity; discriminate.
    - rewrite Eq. rewrite reqb_refl. destruct (rltb_spec (rnd (INR (votes c') / INR (votes c0))) (rnd (INR (votes c') / INR (votes c0)))); [lra|]. split; split; intros; try lia; try reflexivity; discriminate.
    - specialize (A2 ltac:(lia) M1 Sm). destruct (rltb_spec (rnd (INR (votes c) / INR (votes c0))) (rnd (INR (votes c') / INR (votes c0)))); [lra|].
      destruct (reqb_spec (rnd (INR (votes c) / INR (votes c0))) (rnd (INR (votes c') / INR (votes c0)))); [lra|]. split; split; intros; try lia; try reflexivity; discriminate.
  Qed.
  (** So the values listed as most believed for a variable are exactly those with the most votes. *)
  Theorem C63_plurality clock r x : voting_run (F:=F) clock d = Ok r -> In x (variables ts) ->
    exists l, get_most_believed_values (F:=F) r x = Ok l /\ l <> [] /\ NoDup l /\
      forall w, In w l <-> In (x, w) (claims ts) /\ forall w', (votes (x, w') <= votes (x, w))%nat.
  Proof.
    intros H Hx. destruct (voting_reports clock r H) as (NE & g & (_ & Rb & _ & _ & ND) & Hg). destruct (variable_claims ts x Hx) as [v0 H0].
    pose proof (Rb (x, v0)) as B0. rewrite (proj2 (mem_In (x, v0) (claims ts)) H0) in B0. unfold belief_of in B0. cbn [fst snd] in B0.
    destruct (dget (r_belief r) x) as [mm|] eqn:Em; [|discriminate].
    assert (Bw : forall w, dget mm w = if mem (x, w) (claims ts) then Some (g (x, w)) else None) by (intros w; rewrite <- Rb; unfold belief_of; cbn [fst snd]; now rewrite Em).
    assert (Nn : forall c, In c (claims ts) -> is_nan (g c) = false) by (intros c Hc; destruct (Hg c Hc) as [Fc _]; destruct (g c); try discriminate; reflexivity).
    destruct (C17_most_believed_iff (F:=F) (good:=fun z : b64 => is_nan z = false) r x mm Em) as (l & E & Nl & Dl & Hl).
    - intros Q. rewrite Q in B0. discriminate.
    - exact (ND x mm Em).
    - intros w q Hin. assert (Q : dget mm w = Some q) by (apply In_dget; [exact (ND x mm Em)|exact Hin]). rewrite Bw in Q. destruct (mem (x, w) (claims ts)) eqn:M; [|discriminate]. injection Q as <-. apply Nn. now apply mem_In.
    - exists l. split; [exact E|]. split; [exact Nl|]. split; [exact Dl|]. intros w. rewrite Hl. split.
      + intros (q & Hq & Mx). rewrite Bw in Hq. destruct (mem (x, w) (claims ts)) eqn:M; [|discriminate]. apply mem_In in M. injection Hq as <-. split; [exact M|]. intros w'.
        destruct (mem (x, w') (claims ts)) eqn:M'.
        * specialize (Mx w' (g (x, w'))). rewrite Bw, M' in Mx. specialize (Mx eq_refl). apply mem_In in M'. apply Nat.nlt_ge. intros Lt.
          destruct (C63_no_false_ties clock r (x, w) (x, w') (g (x, w)) (g (x, w')) H) as [T _].
          { rewrite Rb. now rewrite (proj2 (mem_In (x, w) (claims ts)) M). } { rewrite Rb. now rewrite (proj2 (mem_In (x, w') (claims ts)) M'). }
          apply T in Lt. change (@n_ltb F (g (x, w)) (g (x, w'))) with (Bltb (g (x, w)) (g (x, w'))) in Mx. congruence.
        * destruct (supporters ts (x, w')) as [|s t] eqn:Es; [cbn; lia|]. exfalso. assert (Hs : In s (supporters ts (x, w'))) by (rewrite Es; now left). apply supporters_In in Hs.
          assert (Q : In (x, w') (claims ts)) by (apply claims_In; eauto). apply mem_In in Q. congruence.
      + intros [Hc Mx]. exists (g (x, w)). split; [rewrite Bw; now rewrite (proj2 (mem_In (x, w) (claims ts)) Hc)|]. intros w' q' Hq'. rewrite Bw in Hq'. destruct (mem (x, w') (claims ts)) eqn:M'; [|discriminate]. injection Hq' as <-. apply mem_In in M'.
        destruct (C63_no_false_ties clock r (x, w) (x, w') (g (x, w)) (g (x, w')) H) as [T _].
        { rewrite Rb. now rewrite (proj2 (mem_In (x, w) (claims ts)) Hc). } { rewrite Rb. now rewrite (proj2 (mem_In (x, w') (claims ts)) M'). }
        change (@n_ltb F (g (x, w)) (g (x, w'))) with (Bltb (g (x, w)) (g (x, w'))). destruct (Bltb (g (x, w)) (g (x, w'))) eqn:Q; [|reflexivity]. pose proof (proj1 T eq_refl). specialize (Mx w'). lia.
  Qed.
End C63.

(** ** Non-vacuity: a data set with ties and non-ties, built and counted in doubles *)
Module VoteExamples.
  Definition ts : list (nat * nat * nat) := [(1,1,10); (1,2,20); (2,1,10); (2,2,21); (3,1,11); (4,1,10)]%nat.
  Example runs : exists d r, build (F:=B64 FloatExamples.lm) false None ts = Ok d /\ voting_run (F:=B64 FloatExamples.lm) (fun _ => ofZ64 0) d = Ok r /\ (Z.of_nat (length (sources ts)) < 2 ^ 53)%Z /\ In 2%nat (variables ts) /\
    length (supporters ts (1, 10)%nat) = 3%nat /\ length (supporters ts (1, 11)%nat) = 1%nat /\ length (supporters ts (2, 20)%nat) = length (supporters ts (2, 21)%nat).
  Proof.
    destruct (FloatExamples.strict_builds64 ts) as [d E]; [unfold ts, sv_pairs; cbn; repeat constructor; cbn; intuition congruence|].
    destruct (C34_voting_float FloatExamples.lm false None ts d E) with (clock := fun _ : nat => ofZ64 0) as (r & Hr & _); [cbn; lia|cbn; lia|discriminate|].
    exists d, r. split; [exact E|]. split; [exact Hr|]. split; [vm_compute; reflexivity|]. split; [right; now left|]. split; [reflexivity|]. split; reflexivity.
  Qed.
End VoteExamples.
