(** C106, continued: AverageLog, CRH and TruthFinder with an OrdinalIterator, in double arithmetic, without the condition that no score is
    NaN: the conditions of C93, C94 and C103 exclude NaN. *)
From Coq Require Import ZArith Reals Lia Lra.
From Flocq Require Import Core IEEE754.BinarySingleNaN.
From Verif Require Import Base Num Sparse Spec SpecAlg Dataset DatasetProofs DatasetRep Iterators Algorithms Driver Ranking Rounds Float PropsRun PropsAlg PropsFloat PropsUsums64
  PropsAvlog64 PropsCrh64 PropsTFRange64 PropsOrdStop64.
Local Open Scope nat_scope.

Section Unconditional.
  Context {S V W : Type} {ES : Eqb S} {EV : Eqb V} {EW : Eqb W}.
  Variable L : libm.
  Notation F := (B64 L).
  Variables (b : bool) (f : option (V -> W -> W -> option b64)) (ts : list (S * V * W)) (d : dataset S V W F).
  Hypothesis Hb : build (F:=F) b f ts = Ok d.
  Hypothesis Few : (Z.of_nat (length (sources ts)) < 2 ^ 53)%Z.
  Notation result := (result S V W b64).

  Lemma zeros_not_nan n i : is_nan (nth i (vzeros (F:=F) n) (n_ofZ (n:=F) 0)) = false.
  Proof. unfold vzeros, vfull. revert i. induction n as [|n IH]; intros [|i]; cbn [repeat nth]; try reflexivity. apply IH. Qed.
  (** the result without any round: all trust scores are 0 *)
  Lemma start_no_nan a p r : a = AverageLog \/ (exists eps, a = CRH eps) -> after L d a p 0 r -> no_nan r.
  Proof.
    intros Ha A s x Hx. pose proof A as (clock & fuel & st & lg & o' & H & Hi). apply (run_cases (F:=F) b f ts d Hb) in H. destruct H as (NE & x0 & k & it' & E0 & _).
    assert (Na : a <> UnboundedSums) by (destruct Ha as [->|[eps ->]]; discriminate).
    destruct (after_char L b f ts d Hb a p Na x0 E0 0 r A) as (_ & T). rewrite T in Hx. destruct (mem s (sources ts)); [|discriminate]. injection Hx as <-. unfold tr. cbn [scores].
    assert (Z0 : fst x0 = vzeros (F:=F) (num_sources d)).
    { destruct Ha as [->|[eps ->]]; cbn [init] in E0; [destruct (prior_beliefs p d); [|discriminate]|]; injection E0 as <-; reflexivity. }
    rewrite Z0. apply zeros_not_nan.
  Qed.
  (** an algorithm that does not give NaN stops when the order of the sources has not changed for t rounds, or by itself *)
  Lemma ordinal_run a p clock fuel t n c lg r o' : a <> UnboundedSums -> (forall j r, after L d a p j r -> no_nan r) ->
    run (F:=F) clock fuel (AObj a p (IOrd t n c) lg) d = (Ok r, o') ->
    exists k, r_iterations r = Some k /\ (unchanged L d a p t k \/ ends_itself L d a p k) /\ forall k', k' < k -> ~ unchanged L d a p t k' /\ ~ ends_itself L d a p k'.
  Proof.
    intros Na NN H. pose proof H as H0. apply (run_cases (F:=F) b f ts d Hb) in H0. destruct H0 as (NE & x0 & k & it' & E0 & El & x & Ef & Er). assert (Hk : r_iterations r = Some k) by (rewrite Er; reflexivity).
    exists k. split; [exact Hk|]. destruct (C106_ordinal_stops64 L b f ts d Hb a p Na Few clock fuel t n c lg r o' k H Hk) as (Ex & Q).
    exact (Q (fun j r' _ A => NN j r' A)).
  Qed.
  (** algorithms other than TruthFinder never end by themselves *)
  Lemma never_ends a p k : ts <> [] -> p <> BadPrior -> a = AverageLog \/ (exists eps, a = CRH eps) -> ~ ends_itself L d a p k.
  Proof.
    intros NE Hp Ha Q. assert (Na : a <> UnboundedSums) by (destruct Ha as [->|[eps ->]]; discriminate).
    destruct (C28_fixed_returns (F:=F) b f ts d Hb (fun _ => n_ofZ (n:=F) 0) (Datatypes.S (Datatypes.S k)) a p (Z.of_nat (Datatypes.S k)) 0 None NE Na Hp) as (r1 & Hr1); [lia|].
    destruct (run (F:=F) (fun _ => n_ofZ (n:=F) 0) (Datatypes.S (Datatypes.S k)) (AObj a p (IFixed (Z.of_nat (Datatypes.S k)) 0) None) d) as [q o1] eqn:E. cbn in Hr1. subst q.
    destruct (C28_fixed (F:=F) b f ts d Hb _ _ a p _ 0 None r1 o1 E) as (k1 & Ek & _ & Em & _). assert (Em' : k1 = Z.to_nat (Z.of_nat (Datatypes.S k))) by (destruct Ha as [->|[eps ->]]; exact Em). clear Em.
    pose proof (Q (Z.of_nat (Datatypes.S k)) _ _ 0 None r1 o1 ltac:(lia) E) as Q1. pose proof (eq_trans (eq_sym Ek) Q1) as H9. injection H9 as H9. lia.
  Qed.
  Lemma finite_not_nan lo hi (x : b64) : double_in lo hi x -> is_nan x = false.
  Proof. intros (H & _). destruct x; try discriminate H; reflexivity. Qed.

  Theorem C106_average_log64 p clock fuel t n c lg r o' : plausible_log L -> (Z.of_nat (length (claims ts)) <= 2 ^ 53)%Z -> (exists s, 2 <= length (claims_of ts s)) ->
    run (F:=F) clock fuel (AObj AverageLog p (IOrd t n c) lg) d = (Ok r, o') ->
    exists k, r_iterations r = Some k /\ unchanged L d AverageLog p t k /\ forall k', k' < k -> ~ unchanged L d AverageLog p t k'.
  Proof.
    intros Log FewC Two H. assert (NN : forall j r, after L d AverageLog p j r -> no_nan r).
    { intros [|j] r0 A; [exact (start_no_nan AverageLog p r0 (or_introl eq_refl) A)|]. destruct A as (clock' & fuel' & st & lg' & o1 & H1 & Hi). intros s x Hx.
      destruct (C93_avlog_float L Log b f ts d Hb ltac:(lia) FewC clock' fuel' p _ lg' r0 o1 _ Two H1 Hi ltac:(discriminate)) as (N & _). exact (finite_not_nan _ _ _ (N s x Hx)). }
    destruct (ordinal_run AverageLog p clock fuel t n c lg r o' ltac:(discriminate) NN H) as (k & Hk & Q1 & Q2). exists k. split; [exact Hk|].
    pose proof H as H0. apply (run_cases (F:=F) b f ts d Hb) in H0. destruct H0 as (NE & x0 & _ & _ & E0 & _). assert (Hp : p <> BadPrior) by (intros ->; cbn in E0; discriminate).
    split; [|intros k' Hk'; now apply Q2]. destruct Q1 as [Q1|Q1]; [exact Q1|]. destruct (never_ends AverageLog p k NE Hp (or_introl eq_refl) Q1).
  Qed.
  Theorem C106_crh64 p (eps : b64) e0 clock fuel t n c lg r o' : usable_log L -> (Z.of_nat (length (claims ts)) <= 2 ^ 53)%Z -> p <> BadPrior -> isf eps e0 -> (bpow radix2 (-400) <= e0 <= bpow radix2 400)%R ->
    run (F:=F) clock fuel (AObj (CRH (F:=F) eps) p (IOrd t n c) lg) d = (Ok r, o') ->
    exists k, r_iterations r = Some k /\ unchanged L d (CRH (F:=F) eps) p t k /\ forall k', k' < k -> ~ unchanged L d (CRH (F:=F) eps) p t k'.
  Proof.
    intros Log FewC Hp Heps Re H. assert (NN : forall j r, after L d (CRH (F:=F) eps) p j r -> no_nan r).
    { intros [|j] r0 A; [exact (start_no_nan (CRH (F:=F) eps) p r0 (or_intror (ex_intro _ eps eq_refl)) A)|]. destruct A as (clock' & fuel' & st & lg' & o1 & H1 & Hi). intros s x Hx.
      destruct (C94_crh_float L Log b f ts d Hb ltac:(lia) FewC eps e0 Heps Re clock' fuel' p _ lg' r0 o1 _ H1 Hi ltac:(discriminate)) as (_ & N). exact (finite_not_nan _ _ _ (N s x Hx)). }
    destruct (ordinal_run (CRH (F:=F) eps) p clock fuel t n c lg r o' ltac:(discriminate) NN H) as (k & Hk & Q1 & Q2). exists k. split; [exact Hk|].
    pose proof H as H0. apply (run_cases (F:=F) b f ts d Hb) in H0. destruct H0 as (NE & _).
    split; [|intros k' Hk'; now apply Q2]. destruct Q1 as [Q1|Q1]; [exact Q1|]. destruct (never_ends (CRH (F:=F) eps) p k NE Hp (or_intror (ex_intro _ eps eq_refl)) Q1).
  Qed.
End Unconditional.

(** TruthFinder may also end by itself: when a trust score has become 1. *)
Section TruthFinder.
  Context {S V W : Type} {ES : Eqb S} {EV : Eqb V} {EW : Eqb W}.
  Variable L : libm.
  Notation F := (B64 L).
  Variables (b : bool) (ts : list (S * V * W)) (d : dataset S V W F).
  Hypothesis Hb : build (F:=F) b None ts = Ok d.
  Theorem C106_truthfinder64 p (rho gamma t0 : b64) g0 q0 clock fuel t n c lg r o' : usable_log L -> usable_exp L ->
    (Z.of_nat (length (sources ts)) < 2 ^ 53)%Z -> (Z.of_nat (length (claims ts)) <= 2 ^ 53)%Z -> (forall s, In s (sources ts) -> safe (length (claims_of ts s)) = true) ->
    isf gamma g0 -> (0 <= g0 <= 1)%R -> isf t0 q0 -> (0 <= q0 <= 1)%R ->
    run (F:=F) clock fuel (AObj (F:=F) (TruthFinder (F:=F) rho gamma t0) p (IOrd t n c) lg) d = (Ok r, o') ->
    exists k, r_iterations r = Some k /\ (unchanged L d (TruthFinder (F:=F) rho gamma t0) p t k \/ ends_itself L d (TruthFinder (F:=F) rho gamma t0) p k) /\
      forall k', k' < k -> ~ unchanged L d (TruthFinder (F:=F) rho gamma t0) p t k' /\ ~ ends_itself L d (TruthFinder (F:=F) rho gamma t0) p k'.
  Proof.
    intros Log Exp Fs Fc Sf Hg Bg Ht Bt H. apply (ordinal_run L b None ts d Hb Fs _ p clock fuel t n c lg r o'); [discriminate| |exact H].
    intros j r0 (clock' & fuel' & st & lg' & o1 & H1 & Hi) s x Hx.
    destruct (C103_tf_float L Log Exp b ts d Hb ltac:(lia) Fc Sf rho gamma t0 g0 q0 Hg Bg Ht Bt clock' fuel' p _ lg' r0 o1 H1) as ((N & _) & _). exact (finite_not_nan _ _ _ (N s x Hx)).
  Qed.
End TruthFinder.

(** Non-vacuity: a crude logarithm and exponential that meet the conditions, and runs computed with them. *)
Module OrdStop64bExamples.
  Import OrdStop64Examples.
  Definition lmc : libm := Libm (fun x => if Beqb x (ofZ64 1) then ofZ64 0 else if Bltb x (ofZ64 1) then Bopp (ofZ64 1) else ofZ64 1)
    (fun x => if Beqb x (ofZ64 0) then ofZ64 1 else Bdiv mode_NE (ofZ64 1) (ofZ64 2)) (fun x _ => x).
  Notation F := (B64 lmc).
  Local Open Scope R_scope.
  Lemma beqb_fin (x y : b64) : is_finite x = true -> is_finite y = true -> Beqb x y = Raux.Req_bool (B2R x) (B2R y).
  Proof. intros A B. exact (Beqb_correct 53 1024 x y A B). Qed.
  Lemma plausible_lmc : plausible_log lmc.
  Proof.
    split.
    - cbn [lmc lm_ln]. rewrite (beqb_fin _ _ (proj1 one64) (proj1 one64)), Raux.Req_bool_true by reflexivity. split; [reflexivity|]. rewrite (proj2 zero64). lra.
    - intros n Hn. assert (Hf : isf (ofZ64 n) (IZR n)) by (apply ofZ64_isf; lia). assert (N2 : 2 <= IZR n) by (apply (IZR_le 2); lia). cbn [lmc lm_ln].
      rewrite (beqb_fin _ _ (proj1 Hf) (proj1 one64)), Raux.Req_bool_false; [|rewrite (proj2 Hf), (proj2 one64); lra].
      replace (Bltb (ofZ64 n) (ofZ64 1)) with false.
      + split; [reflexivity|]. rewrite (proj2 one64). lra.
      + pose proof (Bltb_correct 53 1024 (ofZ64 n) (ofZ64 1) (proj1 Hf) (proj1 one64)) as Q. symmetry. etransitivity; [exact Q|]. apply Raux.Rlt_bool_false. rewrite (proj2 Hf), (proj2 one64). lra.
  Qed.
  Lemma usable_lmc : usable_log lmc.
  Proof.
    intros x [Fx [X1 X2]]. cbn [lmc lm_ln]. rewrite (beqb_fin _ _ Fx (proj1 one64)). destruct (Raux.Req_bool_spec (B2R x) (B2R (ofZ64 1))) as [_|N].
    - split; [reflexivity|]. rewrite (proj2 zero64). lra.
    - assert (Q : Bltb x (ofZ64 1) = true).
      { etransitivity; [exact (Bltb_correct 53 1024 x (ofZ64 1) Fx (proj1 one64))|]. apply Raux.Rlt_bool_true. pose proof (proj2 one64) as O1. unfold B2R64 in *. lra. }
      rewrite Q. assert (M : isf (Bopp (ofZ64 1)) (-1)) by (split; [rewrite is_finite_Bopp; reflexivity|etransitivity; [exact (B2R_Bopp 53 1024 (ofZ64 1))|]; exact (f_equal Ropp (proj2 one64))]). split; [exact (proj1 M)|]. rewrite (proj2 M). lra.
  Qed.
  Lemma usable_exp_lmc : usable_exp lmc.
  Proof.
    intros x _ _. cbn [lmc lm_exp]. destruct (Beqb x (ofZ64 0)).
    - split; [reflexivity|]. rewrite (proj2 one64). lra.
    - assert (T : isf (ofZ64 2) 2) by (apply (ofZ64_isf 2); lia). destruct (div_up64 _ _ 1 2 0 1 one64 T) as (A & B); [change (bpow radix2 0) with 1; lra|change (bpow radix2 1) with 2; lra|lia|].
      split; [exact (proj1 A)|]. rewrite (proj2 A). change (bpow radix2 (0 - 1 + 1)) with 1 in B. cbn in B |- *. lra.
  Qed.
  Lemma strict_builds (l : list (nat * nat * nat)) : NoDup (sv_pairs l) -> exists d : dataset nat nat nat F, build (F:=F) false None l = Ok d.
  Proof.
    intros ND. destruct (build_strict (F:=F) None l) as [(_ & _ & d & E & _)|[(_ & N & _)|(s & x & H & _)]].
    - exists d. exact E.
    - exfalso. apply N. intros c c' q _ _ H. unfold imp_val in H. destruct (_ && _)%bool; discriminate.
    - exfalso. exact (first_repeat_not_NoDup _ _ _ H ND).
  Qed.
  Definition checks : bool := match build (F:=F) false None ts0 with
    | Ok d => match fst (run (F:=F) (fun _ => ofZ64 0) 30 (AObj AverageLog FIXED (IOrd 3 0 0) None) d) with Ok r => beq (r_iterations r) (Some 4%nat) | Err _ => false end
    | Err _ => false end.
  Definition checks_crh : bool := match build (F:=F) false None ts0 with
    | Ok d => match fst (run (F:=F) (fun _ => ofZ64 0) 30 (AObj (mk_crh (F:=F) None) FIXED (IOrd 3 0 0) None) d) with Ok r => beq (r_iterations r) (Some 3%nat) | Err _ => false end
    | Err _ => false end.
  Definition checks_tf : bool := match build (F:=F) false None ts0 with
    | Ok d => match fst (run (F:=F) (fun _ => ofZ64 0) 30 (AObj (mk_truthfinder (F:=F) None None None) FIXED (IOrd 3 0 0) None) d) with Ok r => match r_iterations r with Some _ => true | None => false end | Err _ => false end
    | Err _ => false end.
  Example checked : checks = true. Proof. vm_cast_no_check (eq_refl true). Qed.
  Example checked_crh : checks_crh = true. Proof. vm_cast_no_check (eq_refl true). Qed.
  Example checked_tf : checks_tf = true. Proof. vm_cast_no_check (eq_refl true). Qed.
  Lemma ts0_ok : NoDup (sv_pairs ts0). Proof. unfold ts0, sv_pairs. cbn. repeat constructor; cbn; intuition congruence. Qed.
  (** AverageLog stops after exactly four rounds *)
  Example average_log_four : exists d, build (F:=F) false None ts0 = Ok d /\ unchanged lmc d AverageLog FIXED 3 4 /\ ~ unchanged lmc d AverageLog FIXED 3 3.
  Proof.
    destruct (strict_builds ts0 ts0_ok) as [d E]. pose proof checked as C. unfold checks in C. rewrite E in C.
    destruct (run (F:=F) (fun _ => ofZ64 0) 30 (AObj AverageLog FIXED (IOrd 3 0 0) None) d) as [[r|e] o'] eqn:Er; cbn [fst] in C; [|discriminate C]. apply (proj1 (beq_true _ _)) in C.
    destruct (C106_average_log64 lmc false None ts0 d E ltac:(cbn; lia) FIXED _ _ _ _ _ _ _ _ plausible_lmc ltac:(cbn; lia) ltac:(exists 1%nat; cbn; lia) Er) as (k & Ek & Q1 & Q2).
    rewrite C in Ek. injection Ek as <-. exists d. split; [exact E|]. split; [exact Q1|]. apply Q2. lia.
  Qed.
  Example crh_three : exists d (eps : b64), build (F:=F) false None ts0 = Ok d /\ mk_crh (F:=F) None = CRH (F:=F) eps /\ unchanged lmc d (CRH (F:=F) eps) FIXED 3 3 /\ ~ unchanged lmc d (CRH (F:=F) eps) FIXED 3 2.
  Proof.
    destruct (strict_builds ts0 ts0_ok) as [d E]. pose proof checked_crh as C. unfold checks_crh in C. rewrite E in C.
    destruct (C94_default_eps lmc) as (eps & e0 & E1 & E2 & E3). rewrite E1 in C. exists d, eps.
    destruct (run (F:=F) (fun _ => ofZ64 0) 30 (AObj (CRH (F:=F) eps) FIXED (IOrd 3 0 0) None) d) as [[r|e] o'] eqn:Er; cbn [fst] in C; [|discriminate C]. apply (proj1 (beq_true _ _)) in C.
    assert (Re : bpow radix2 (-400) <= e0 <= bpow radix2 400).
    { split; [eapply Rle_trans; [|exact (proj1 E3)]; apply bpow_le; lia|eapply Rle_trans; [exact (proj2 E3)|]; apply bpow_le; lia]. }
    destruct (C106_crh64 lmc false None ts0 d E ltac:(cbn; lia) FIXED eps e0 _ _ _ _ _ _ _ _ usable_lmc ltac:(cbn; lia) ltac:(discriminate) E2 Re Er) as (k & Ek & Q1 & Q2).
    rewrite C in Ek. injection Ek as <-. split; [exact E|]. split; [exact E1|]. split; [exact Q1|]. apply Q2. lia.
  Qed.
  Example truthfinder_stops : exists d (rho gamma t0 : b64) k, build (F:=F) false None ts0 = Ok d /\ mk_truthfinder (F:=F) None None None = TruthFinder (F:=F) rho gamma t0 /\
    (unchanged lmc d (TruthFinder (F:=F) rho gamma t0) FIXED 3 k \/ ends_itself lmc d (TruthFinder (F:=F) rho gamma t0) FIXED k).
  Proof.
    destruct (strict_builds ts0 ts0_ok) as [d E]. pose proof checked_tf as C. unfold checks_tf in C. rewrite E in C.
    destruct (C103_defaults lmc) as (rho & gamma & t0 & g0 & q0 & E1 & Hg & Bg & Ht & Bt). rewrite E1 in C.
    destruct (run (F:=F) (fun _ => ofZ64 0) 30 (AObj (TruthFinder (F:=F) rho gamma t0) FIXED (IOrd 3 0 0) None) d) as [[r|e] o'] eqn:Er; cbn [fst] in C; [|discriminate C].
    assert (Sf : forall s, In s (sources ts0) -> safe (length (claims_of ts0 s)) = true).
    { assert (Q : forallb (fun s => safe (length (claims_of ts0 s))) (sources ts0) = true) by (vm_compute; reflexivity). intros s Hs. exact (proj1 (forallb_forall _ _) Q s Hs). }
    destruct (C106_truthfinder64 lmc false ts0 d E FIXED rho gamma t0 g0 q0 _ _ _ _ _ _ _ _ usable_lmc usable_exp_lmc ltac:(cbn; lia) ltac:(cbn; lia) Sf Hg Bg Ht ltac:(lra) Er) as (k & Ek & Q1 & _).
    exists d, rho, gamma, t0, k. split; [exact E|]. split; [exact E1|]. exact Q1.
  Qed.
End OrdStop64bExamples.
