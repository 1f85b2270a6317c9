(** C64: TruthFinder in double arithmetic: a trust that rounds to more than 1 turns every score into NaN. *)
From Coq Require Import Reals Lra.
From Flocq Require Import Core IEEE754.BinarySingleNaN.
From Verif Require Import Base Num Sparse Spec SpecAlg Dataset DatasetProofs DatasetRep Iterators Algorithms Driver Rounds Ranking
  AlgRep AlgTF PropsData PropsIter PropsRun PropsAlg Float PropsFloat PropsVote64.
Local Open Scope R_scope.

(** the matrix of TruthFinder when there is no implication function, in any arithmetic *)
Section NoImp.
  Context {S V W : Type} {ES : Eqb S} {EV : Eqb V} {EW : Eqb W} {F : Num} {FOK : NumOK F}.
  Variables (ts : list (S * V * W)) (d : dataset S V W F).
  Hypothesis R0 : ds_rep (F:=F) ts None d.
  Lemma tfB_none rho : mrep (tf_b_mat rho d) (claims ts) (sources ts) (fun c s => says ts s c) (fun _ _ => n_ofZ 1).
  Proof.
    pose proof (mrep_tr _ _ _ _ _ (rep_sc _ _ _ R0)) as M1. pose proof (mrep_tr _ _ _ _ _ (rep_imp _ _ _ R0)) as M2.
    pose proof (smul_rep rho _ _ _ _ _ (mm_rep _ _ _ _ _ _ _ _ _ M2 M1)) as M4. pose proof (madd_rep _ _ _ _ _ _ _ _ M1 M4) as M5. cbv zeta in M5.
    assert (No : forall c s, existsb (fun b => is_some (imp_val (F:=F) None b c) && says ts s b)%bool (claims ts) = false).
    { intros c s. destruct (existsb _ _) eqn:E; [|reflexivity]. apply existsb_exists in E. destruct E as (c' & _ & E). apply andb_true_iff in E. destruct E as [E _]. unfold imp_val in E. destruct (_ && _)%bool; discriminate. }
    eapply mrep_ext; [exact M5| |]; intros c s; cbn beta.
    - rewrite No, orb_false_r. destruct (says ts s c); [|reflexivity]. cbn [andb]. now rewrite one_nonzero.
    - rewrite No. destruct (says ts s c); [reflexivity|]. cbn. discriminate.
  Qed.
End NoImp.

(** What is assumed of the C library's log and exp: a few gross facts, true of any usable implementation. *)
Definition nan64 : b64 := B754_nan.
Record sane_libm (L : libm) : Prop := {
  (* the logarithm of a negative number, and of NaN, is NaN; exp(NaN) is NaN *)
  ln_neg : forall x, Bltb x (ofZ64 0) = true -> lm_ln L x = nan64;
  ln_nan : lm_ln L nan64 = nan64;
  exp_nan : lm_exp L nan64 = nan64;
  (* log(1 - 0.9) = -2.30258... *)
  ln_tenth : double_in (-4) (-2) (lm_ln L (Bminus mode_NE (ofZ64 1) (lit (F:=B64 L) 9 10)));
  (* exp(-37) = 8.53e-17 < 2^-53 *)
  exp_small : forall x, is_finite x = true -> B2R64 x <= -37 -> double_in 0 (bpow radix2 (-53)) (lm_exp L x)
}.

(** the sum, in doubles, of n copies of 1/n *)
Definition sum_of_shares (n : nat) : b64 := fold_left (Bplus mode_NE) (repeat (Bdiv mode_NE (ofZ64 1) (ofZ64 (Z.of_nat n))) n) (ofZ64 0).
(** it is larger than 1 *)
Definition overshoots (n : nat) : bool := Bltb (ofZ64 1) (sum_of_shares n) && Bltb (Bminus mode_NE (ofZ64 1) (sum_of_shares n)) (ofZ64 0).
(** for instance for 9, 11, 18, 20, 21, 25, 35, 36, 39 and 40 *)
Theorem C64_overshooting_numbers : filter overshoots (seq 1 40) = [9; 11; 18; 20; 21; 25; 35; 36; 39; 40]%nat.
Proof. vm_compute. reflexivity. Qed.

(** ** arithmetic *)
Lemma nan_mul x : Bmult mode_NE x nan64 = nan64. Proof. now destruct x. Qed.
Lemma nan_add x : Bplus mode_NE x nan64 = nan64. Proof. destruct x as [[]|[]| |[] ? ? ?]; reflexivity. Qed.
Lemma nan_add' x : Bplus mode_NE nan64 x = nan64. Proof. reflexivity. Qed.
Lemma nan_sum l : fold_left (Bplus mode_NE) l nan64 = nan64. Proof. induction l as [|x l IH]; [reflexivity|]. cbn [fold_left]. now rewrite nan_add'. Qed.
Lemma nan_row {A} (h : A -> b64) (l : list A) a : l <> [] -> (forall x, In x l -> h x = nan64) -> fold_left (Bplus mode_NE) (map h l) a = nan64.
Proof. destruct l as [|x l]; [congruence|]. intros _ H. cbn [map fold_left]. rewrite (H x (or_introl eq_refl)), nan_add. apply nan_sum. Qed.
Lemma one_plus_tiny e : double_in 0 (bpow radix2 (-53)) e -> Bplus mode_NE (ofZ64 1) e = ofZ64 1.
Proof.
  intros [Fe He]. assert (Ie : isf e (B2R64 e)) by (split; auto).
  assert (M : generic_format radix2 fexp64 2) by (change 2 with (bpow radix2 1); apply fmt_bpow; lia).
  assert (B : bpow radix2 (-53) <= 1) by (change 1 with (bpow radix2 0); apply bpow_le; lia).
  assert (L2 : 2 < bpow radix2 1024) by (change 2 with (bpow radix2 1); apply bpow_lt; lia).
  pose proof (add64 _ _ _ _ 2 one64 Ie ltac:(lra) (proj1 He) M ltac:(lra) L2) as A.
  assert (Q : rnd (1 + B2R64 e) = 1).
  { apply Rle_antisym; [|apply rnd_ge_fmt; [exact fmt_1|lra]].
    apply Rle_trans with (rnd (1 + bpow radix2 (-53))); [apply rnd_le; lra|].
    set (tiny := Bdiv mode_NE (ofZ64 1) (ofZ64 (2 ^ 53))).
    assert (It : isf tiny (bpow radix2 (-53))).
    { assert (Z : ofZ64 (2 ^ 53) = ofZ64 (2 ^ 53)) by reflexivity. pose proof (ofZ64_isf (2 ^ 53) ltac:(lia)) as I53. change (IZR (2 ^ 53)) with (bpow radix2 53) in I53.
      assert (E1 : 1 / bpow radix2 53 = bpow radix2 (-53)) by (change (-53)%Z with (Z.opp 53); rewrite bpow_opp; unfold Rdiv; ring).
      rewrite <- (rnd_id (bpow radix2 (-53)) (fmt_bpow (-53) ltac:(lia))), <- E1. apply (div64 _ _ _ _ 1); [exact one64|exact I53|pose proof (bpow_gt_0 radix2 53); lra|rewrite E1; apply bpow_ge_0|exact fmt_1|rewrite E1; exact B|change 1 with (bpow radix2 0); apply bpow_lt; lia]. }
    pose proof (add64 _ _ _ _ 2 one64 It ltac:(lra) (bpow_ge_0 _ _) M ltac:(lra) L2) as At.
    assert (Et : Bplus mode_NE (ofZ64 1) tiny = ofZ64 1) by (apply B2SF_inj; unfold tiny; vm_compute; reflexivity). rewrite Et in At. rewrite <- (isf_fun _ _ _ one64 At). lra. }
  rewrite Q in A. apply (isf_pos_inj _ _ 1 A one64). lra.
Qed.
Lemma one_div_one : Bdiv mode_NE (ofZ64 1) (ofZ64 1) = ofZ64 1. Proof. apply B2SF_inj. vm_compute. reflexivity. Qed.
Lemma mul64_neg x y a b M : isf x (- a) -> isf y b -> 0 <= a * b -> generic_format radix2 fexp64 M -> a * b <= M -> M < bpow radix2 1024 ->
  isf (Bmult mode_NE x y) (- rnd (a * b)).
Proof.
  intros [Fx Ex] [Fy <-] Ha HM Hs HB. pose proof (Bmult_correct 53 1024 _ _ mode_NE x y) as C. rewrite Ex in C. replace (- a * B2R64 y) with (- (a * B2R64 y)) in C by ring.
  assert (No : rnd (- (a * B2R64 y)) = - rnd (a * B2R64 y)) by apply round_NE_opp. rewrite No, Rabs_Ropp, (no_overflow _ M HM) in C by auto.
  destruct C as (C1 & C2 & _). split; [|exact C1]. rewrite C2, Fx, Fy. reflexivity.
Qed.
Lemma copies64 {A} (l : list A) (t : b64) q (k : nat) a r : isf t q -> 2 <= q <= 4 -> (Z.of_nat (k + length l) <= 2 ^ 50)%Z -> isf a r -> 2 * INR k <= r <= 4 * INR k ->
  exists r', isf (fold_left (Bplus mode_NE) (map (fun _ => Bmult mode_NE (ofZ64 1) t) l) a) r' /\ 2 * INR (k + length l) <= r' <= 4 * INR (k + length l).
Proof.
  intros Ht Hq. revert k a r. induction l as [|x l IH]; intros k a r Hk Ha Hr; cbn [length map fold_left] in *; [exists r; rewrite Nat.add_0_r; auto|].
  assert (F4 : generic_format radix2 fexp64 (4 * INR (S k))).
  { rewrite INR_IZR_INZ. change 4 with (bpow radix2 2). rewrite Rmult_comm. apply fmt_int; lia. }
  assert (F2 : generic_format radix2 fexp64 (2 * INR (S k))).
  { rewrite INR_IZR_INZ. change 2 with (bpow radix2 1). rewrite Rmult_comm. apply fmt_int; lia. }
  rewrite S_INR in F4, F2. pose proof (pos_INR k) as Pk.
  assert (B : 4 * (INR k + 1) < bpow radix2 1024).
  { rewrite <- S_INR. apply Rle_lt_trans with (bpow radix2 2 * bpow radix2 53); [apply Rmult_le_compat; [lra|apply pos_INR|change (bpow radix2 2) with 4; lra|]; rewrite INR_IZR_INZ; apply (IZR_le _ (2 ^ 53)); lia|].
    rewrite <- bpow_plus. apply bpow_lt. lia. }
  pose proof (add64 a _ r q _ Ha (one_mul64 t q Ht ltac:(lra)) ltac:(lra) ltac:(lra) F4 ltac:(lra) B) as Hs.
  assert (L1 : 2 * (INR k + 1) <= rnd (r + q)) by (apply rnd_ge_fmt; [exact F2|lra]). assert (L2 : rnd (r + q) <= 4 * (INR k + 1)) by (apply rnd_le_fmt; [exact F4|lra]).
  destruct (IH (S k) _ _ ltac:(lia) Hs ltac:(rewrite S_INR; lra)) as (r' & H1 & H2). exists r'. replace (k + S (length l))%nat with (S k + length l)%nat by lia. auto.
Qed.

Section Rep.
  Context {S V W T : Type} {ES : Eqb S} {EV : Eqb V} {EW : Eqb W}.
  Lemma reports_trust (ts : list (S * V * W)) (r : result S V W T) t g s : reports ts r t g -> In s (sources ts) -> trust_of r s = Some (t s).
  Proof. intros (H & _) Hs. rewrite H, (proj2 (mem_In s _) Hs). reflexivity. Qed.
  Lemma reports_belief (ts : list (S * V * W)) (r : result S V W T) t g c : reports ts r t g -> In c (claims ts) -> belief_of r c = Some (g c).
  Proof. intros (_ & H & _) Hs. rewrite H, (proj2 (mem_In c _) Hs). reflexivity. Qed.
End Rep.

Section C64.
  Context {S V W : Type} {ES : Eqb S} {EV : Eqb V} {EW : Eqb W}.
  Variable L : libm.
  Hypothesis Sane : sane_libm L.
  Notation F := (B64 L).
  Notation data := (dataset S V W F).
  Notation claim := (V * W)%type.
  Notation result := (result S V W b64).
  Variables (b : bool) (ts : list (S * V * W)) (d : data).
  Hypothesis Hb : build (F:=F) b None ts = Ok d.
  Let R0 : ds_rep (F:=F) ts None d := build_rep _ _ _ _ Hb.

  (** every source makes every claim: all sources agree about all variables *)
  Definition unanimous : Prop := forall s c, In s (sources ts) -> In c (claims ts) -> says ts s c = true.
  Hypothesis Una : unanimous.
  (** at least 70 sources agree on a number of claims whose shares overshoot *)
  Hypothesis Many : (70 <= length (sources ts))%nat.
  Hypothesis Small : (Z.of_nat (length (sources ts)) <= 2 ^ 50)%Z.
  Hypothesis Over : overshoots (length (claims ts)) = true.
  Hypothesis SmallC : (Z.of_nat (length (claims ts)) <= 2 ^ 53)%Z.
  Notation N := (length (claims ts)).

  Lemma filter_all {A} (p : A -> bool) l : (forall x, In x l -> p x = true) -> filter p l = l.
  Proof. induction l as [|x l IH]; intros H; [reflexivity|]. cbn. rewrite (H x (or_introl eq_refl)), IH; [reflexivity|]. intros y Hy. apply H. now right. Qed.
  Lemma una_claims s : In s (sources ts) -> claims_of ts s = claims ts.
  Proof. intros Hs. apply filter_all. intros c Hc. now apply Una. Qed.
  Lemma una_supporters c : In c (claims ts) -> supporters ts c = sources ts.
  Proof. intros Hc. apply filter_all. intros s Hs. now apply Una. Qed.
  Lemma ne : ts <> [].
  Proof. intros E. pose proof Many as M. rewrite E in M. cbn in M. lia. Qed.

  Lemma B_mv rho tau : mv (F:=F) (tf_b_mat (F:=F) rho d) (map tau (sources ts)) = map (tt64 ts tau) (claims ts).
  Proof. rewrite (mv_rep (F:=F) _ _ _ _ _ tau (tfB_none (F:=F) ts d R0 rho)). reflexivity. Qed.
  (* a source's share of each of its claims *)
  Notation share := (Bdiv mode_NE (ofZ64 1) (ofZ64 (Z.of_nat N))).
  Lemma counts : claim_counts (F:=F) d = map (fun _ => ofZ64 (Z.of_nat N)) (sources ts).
  Proof.
    unfold claim_counts. rewrite (rep_nc _ _ _ R0), (ones64 L). refine (eq_trans (sc64 L b None ts d Hb (fun _ => ofZ64 1)) _). apply map_ext_in. intros s Hs. unfold tb64. rewrite (una_claims s Hs).
    assert (Pn : (0 < N)%nat) by (pose proof (cl_ne ts ne); destruct (claims ts); [congruence|cbn; lia]).
    apply (isf_pos_inj _ _ (INR N)).
    - apply (count_exact (claims ts) 0); [cbn [Nat.add]; lia|exact zero64].
    - rewrite INR_IZR_INZ. apply ofZ64_isf. lia.
    - apply not_0_INR. lia.
  Qed.
  Lemma A_mv bel : mv (F:=F) (tf_a_mat (F:=F) d) (map bel (claims ts)) = map (fun s => fold_left (Bplus mode_NE) (map (fun c => Bmult mode_NE (Bmult mode_NE (ofZ64 1) share) (bel c)) (claims ts)) (ofZ64 0)) (sources ts).
  Proof.
    unfold tf_a_mat. rewrite counts. unfold sdivv. rewrite map_map.
    pose proof (mrep_tr _ _ _ _ _ (mmulc_rep (F:=F) _ _ _ _ _ (fun _ => share) (mrep_tr _ _ _ _ _ (rep_sc _ _ _ R0)))) as M.
    refine (eq_trans (mv_rep (F:=F) _ _ _ _ _ bel M) _). apply map_ext_in. intros s Hs. match goal with |- fold_left _ (map _ ?l) _ = _ => replace l with (claims ts) by (symmetry; exact (una_claims s Hs)) end. reflexivity.
  Qed.
  Lemma share_pos : exists q, isf share q /\ 0 < q.
  Proof.
    assert (Pn : (0 < N)%nat) by (pose proof (cl_ne ts ne); destruct (claims ts); [congruence|cbn; lia]).
    assert (I1 : isf (ofZ64 (Z.of_nat N)) (IZR (Z.of_nat N))) by (apply ofZ64_isf; lia).
    destruct (div_pos64 (ofZ64 1) (ofZ64 (Z.of_nat N)) 1 (IZR (Z.of_nat N)) one64 I1) as (q & Hq & P); [split; [lra|apply (IZR_le 1); lia]| |exists q; split; [exact Hq|apply P]].
    apply Rle_trans with (bpow radix2 53); [apply (IZR_le _ (2 ^ 53)); lia|apply bpow_le; lia].
  Qed.
  Lemma one_times x q : isf x q -> 0 < q -> Bmult mode_NE (ofZ64 1) x = x.
  Proof. intros H P. apply (isf_pos_inj _ _ q); [apply one_mul64; [exact H|lra]|exact H|lra]. Qed.
  Lemma times_one x q : isf x q -> 0 < q -> Bmult mode_NE x (ofZ64 1) = x.
  Proof.
    intros H P. apply (isf_pos_inj _ _ q); [|exact H|lra]. rewrite <- (rnd_id q (isf_fmt _ _ H)). replace (rnd q) with (rnd (q * 1)) by (f_equal; ring).
    apply (mul64 _ _ _ _ q); [exact H|exact one64|lra|exact (isf_fmt _ _ H)|lra|]. destruct H as [Fx <-]. rewrite <- (Rabs_pos_eq (B2R64 x)) by lra. apply abs_B2R_lt_emax.
  Qed.
  Lemma full_belief : mv (F:=F) (tf_a_mat (F:=F) d) (map (fun _ => ofZ64 1) (claims ts)) = map (fun _ => sum_of_shares N) (sources ts).
  Proof.
    rewrite A_mv. apply map_ext. intros _. destruct share_pos as (q & Hq & P). rewrite (one_times _ q Hq P), (times_one _ q Hq P). unfold sum_of_shares. f_equal. symmetry. apply (repeat_map share).
  Qed.

  Variables (rho : b64).
  Notation a := (TruthFinder (F:=b64) rho (lit (F:=F) 3 10) (lit (F:=F) 9 10)).
  Definition all_nan : vec F * vec F := (map (fun _ => nan64) (sources ts), map (fun _ => nan64) (claims ts)).
  Lemma src_some : sources ts <> []. Proof. exact (src_ne ts ne). Qed.

  (* round 1: every belief is exactly 1.0 and every trust is more than 1 *)
  Lemma round1 bel0 : round (F:=F) a d (map (fun _ => lit (F:=F) 9 10) (sources ts), bel0) =
    UNext (F:=F) (map (fun _ => sum_of_shares N) (sources ts)) (map (fun _ => lit (F:=F) 9 10) (sources ts)) (map (fun _ => sum_of_shares N) (sources ts), map (fun _ => ofZ64 1) (claims ts)).
  Proof.
    cbn [round]. unfold tf_upd, get_log_trust.
    assert (E1 : existsb (fun t => @n_eqb F t (n_ofZ 1)) (map (fun _ => lit (F:=F) 9 10) (sources ts)) = false).
    { destruct (existsb _ _) eqn:E; [|reflexivity]. apply existsb_exists in E. destruct E as (t & Ht & E). apply in_map_iff in Ht. destruct Ht as (_ & <- & _).
      assert (Q : @n_eqb F (lit (F:=F) 9 10) (n_ofZ 1) = false) by (vm_compute; reflexivity). rewrite Q in E. discriminate. }
    rewrite E1. rewrite map_map. set (tau := Bopp (lm_ln L (Bminus mode_NE (ofZ64 1) (lit (F:=F) 9 10)))).
    change (fun x : S => @n_opp F (@n_ln F (@n_sub F (@n_ofZ F 1) ((fun _ : S => lit (F:=F) 9 10) x)))) with (fun _ : S => tau).
    change (fun x : S => @n_opp F (@n_ln F (@n_sub F (@n_ofZ F 1) (lit (F:=F) 9 10)))) with (fun _ : S => tau).
    rewrite B_mv. cbv zeta.
    assert (It : exists q, isf tau q /\ 2 <= q <= 4).
    { destruct (ln_tenth L Sane) as [Fl Hl]. exists (- B2R64 (lm_ln L (Bminus mode_NE (ofZ64 1) (lit (F:=F) 9 10)))). split; [|lra]. split; [unfold tau; now rewrite is_finite_Bopp|unfold tau; apply B2R_Bopp]. }
    destruct It as (q & Hq & Bq).
    assert (Eb : map (fun y => @n_div F (n_ofZ 1) (n_add (n_ofZ 1) (n_exp (n_mul (n_opp (lit (F:=F) 3 10)) y)))) (map (tt64 ts (fun _ => tau)) (claims ts)) = map (fun _ => ofZ64 1) (claims ts)).
    { rewrite map_map. apply map_ext_in. intros c Hc.
      assert (Y : exists r, isf (tt64 ts (fun _ => tau) c) r /\ 140 <= r <= bpow radix2 52).
      { destruct (copies64 (supporters ts c) tau q 0 (ofZ64 0) 0 Hq Bq) as (r & Hr & Br); [rewrite (una_supporters c Hc); cbn [Nat.add]; exact Small|exact zero64|cbn; lra|].
        exists r. split; [exact Hr|]. rewrite (una_supporters c Hc) in Br. cbn [Nat.add] in Br.
        assert (L70 : 70 <= INR (length (sources ts))) by (replace 70 with (INR 70) by (rewrite INR_IZR_INZ; reflexivity); now apply le_INR).
        assert (U50 : INR (length (sources ts)) <= bpow radix2 50) by (rewrite INR_IZR_INZ; apply (IZR_le _ (2 ^ 50)); exact Small).
        assert (B52 : bpow radix2 52 = 4 * bpow radix2 50) by (change 52%Z with (2 + 50)%Z; rewrite bpow_plus; reflexivity). lra. }
      destruct Y as (r & Hr & Br).
      assert (G : exists g, isf (lit (F:=F) 3 10) g /\ 19 / 64 <= g <= 1).
      { assert (I3 : isf (ofZ64 3) 3) by (apply (ofZ64_isf 3); lia). assert (I10 : isf (ofZ64 10) 10) by (apply (ofZ64_isf 10); lia).
        exists (rnd (3 / 10)). split; [apply (div64 _ _ _ _ 1 I3 I10); [lra|lra|exact fmt_1|lra|change 1 with (bpow radix2 0); apply bpow_lt; lia]|]. split.
        - apply rnd_ge_fmt; [|lra]. replace (19 / 64) with (IZR 19 * bpow radix2 (-6)) by (change (bpow radix2 (-6)) with (/ 64); lra). apply fmt_int; lia.
        - apply rnd_le_fmt; [exact fmt_1|lra]. }
      destruct G as (g & Hg & Bg).
      assert (Og : isf (Bopp (lit (F:=F) 3 10)) (- g)) by (destruct Hg as [F1 E2]; split; [now rewrite is_finite_Bopp|rewrite B2R_Bopp; now rewrite E2]).
      assert (Pr : 0 <= g * r) by (apply Rmult_le_pos; lra). assert (Up : g * r <= bpow radix2 52) by nra.
      pose proof (mul64_neg _ _ _ _ (bpow radix2 52) Og Hr Pr (fmt_bpow 52 ltac:(lia)) Up ltac:(apply bpow_lt; lia)) as Hm.
      assert (L37 : 37 <= rnd (g * r)).
      { apply rnd_ge_fmt; [|nra]. replace 37 with (IZR 37 * bpow radix2 0) by (change (bpow radix2 0) with 1; lra). apply fmt_int; lia. }
      pose proof (exp_small L Sane (Bmult mode_NE (Bopp (lit (F:=F) 3 10)) (tt64 ts (fun _ => tau) c)) (proj1 Hm) ltac:(destruct Hm as [_ ->]; lra)) as He.
      change (Bdiv mode_NE (ofZ64 1) (Bplus mode_NE (ofZ64 1) (lm_exp L (Bmult mode_NE (Bopp (lit (F:=F) 3 10)) (tt64 ts (fun _ => tau) c)))) = ofZ64 1).
      rewrite (one_plus_tiny _ He). exact one_div_one. }
    rewrite Eb, full_belief. reflexivity.
  Qed.
  (* later rounds: the logarithm of a negative number *)
  Lemma round_bad t bel0 : (forall s, In s (sources ts) -> Beqb (t s) (ofZ64 1) = false /\ lm_ln L (Bminus mode_NE (ofZ64 1) (t s)) = nan64) ->
    exists u v, round (F:=F) a d (map t (sources ts), bel0) = UNext (F:=F) u v all_nan.
  Proof.
    intros Ht. cbn [round]. unfold tf_upd, get_log_trust.
    assert (E1 : existsb (fun t => @n_eqb F t (n_ofZ 1)) (map t (sources ts)) = false).
    { destruct (existsb _ _) eqn:E; [|reflexivity]. apply existsb_exists in E. destruct E as (x & Hx & E). apply in_map_iff in Hx. destruct Hx as (s & <- & Hs). rewrite <- (proj1 (Ht s Hs)). symmetry. exact E. }
    rewrite E1. rewrite map_map.
    assert (E2 : map (fun x => @n_opp F (@n_ln F (@n_sub F (n_ofZ 1) (t x)))) (sources ts) = map (fun _ => nan64) (sources ts)).
    { apply map_ext_in. intros s Hs. change (Bopp (lm_ln L (Bminus mode_NE (ofZ64 1) (t s))) = nan64). rewrite (proj2 (Ht s Hs)). reflexivity. }
    rewrite E2, B_mv. cbv zeta.
    assert (E3 : map (fun y => @n_div F (n_ofZ 1) (n_add (n_ofZ 1) (n_exp (n_mul (n_opp (lit (F:=F) 3 10)) y)))) (map (tt64 ts (fun _ => nan64)) (claims ts)) = map (fun _ => nan64) (claims ts)).
    { rewrite map_map. apply map_ext_in. intros c Hc.
      assert (Y : tt64 ts (fun _ => nan64) c = nan64) by (unfold tt64; apply nan_row; [rewrite (una_supporters c Hc); exact src_some|intros; apply nan_mul]).
      rewrite Y. change (Bdiv mode_NE (ofZ64 1) (Bplus mode_NE (ofZ64 1) (lm_exp L (Bmult mode_NE (Bopp (lit (F:=F) 3 10)) nan64))) = nan64).
      rewrite nan_mul, (exp_nan L Sane), nan_add. reflexivity. }
    rewrite E3, A_mv. do 2 eexists. unfold all_nan. f_equal. f_equal. apply map_ext. intros _. apply nan_row; [exact (cl_ne ts ne)|]. intros. apply nan_mul.
  Qed.
  Lemma trust_bad : Beqb (sum_of_shares N) (ofZ64 1) = false /\ lm_ln L (Bminus mode_NE (ofZ64 1) (sum_of_shares N)) = nan64.
  Proof.
    pose proof Over as H. unfold overshoots in H. apply andb_true_iff in H. destruct H as [H1 H2]. split; [|now apply (ln_neg L Sane)].
    assert (G : forall x y : b64, Bltb x y = true -> Beqb y x = false).
    { intros x y H. unfold Bltb, Beqb, SpecFloat.SFltb, SpecFloat.SFeqb in *. change (SpecFloat.SFcompare (B2SF y) (B2SF x)) with (Bcompare y x). change (SpecFloat.SFcompare (B2SF x) (B2SF y)) with (Bcompare x y) in H.
      rewrite Bcompare_swap. destruct (Bcompare x y) as [[]|]; try discriminate. reflexivity. }
    now apply G.
  Qed.

  Notation x0 := (map (fun _ => lit (F:=F) 9 10) (sources ts), vzeros (F:=F) (num_claims d)).
  Lemma init_tf p : init (F:=F) a p d = Some x0.
  Proof.
    cbn [init]. f_equal. f_equal. unfold vfull. rewrite (rep_ns _ _ _ R0). apply (repeat_map (lit (F:=F) 9 10)).
  Qed.
  Lemma nan_round bel0 : exists u v, round (F:=F) a d (map (fun _ => nan64) (sources ts), bel0) = UNext (F:=F) u v all_nan.
  Proof. apply round_bad. intros s _. split; [reflexivity|]. change (Bminus mode_NE (ofZ64 1) nan64) with nan64. exact (ln_nan L Sane). Qed.
  Lemma scores1 : scores (F:=F) a d x0 1 = (map (fun _ => sum_of_shares N) (sources ts), map (fun _ => ofZ64 1) (claims ts)).
  Proof. cbn [scores]. rewrite round1. reflexivity. Qed.
  Lemma next k x u v y : scores (F:=F) a d x0 k = x -> round (F:=F) a d x = UNext (F:=F) u v y -> scores (F:=F) a d x0 (Datatypes.S k) = y /\ stops (F:=F) a d x0 k = false.
  Proof. intros E1 E2. unfold stops. cbn [scores]. rewrite E1, E2. auto. Qed.
  Lemma scores_nan k : scores (F:=F) a d x0 (Datatypes.S (Datatypes.S k)) = all_nan.
  Proof.
    induction k as [|k IH].
    - destruct (round_bad (fun _ => sum_of_shares N) (map (fun _ => ofZ64 1) (claims ts)) (fun _ _ => trust_bad)) as (u & v & E). exact (proj1 (next 1 _ u v _ scores1 E)).
    - destruct (nan_round (map (fun _ => nan64) (claims ts))) as (u & v & E). exact (proj1 (next _ _ u v _ IH E)).
  Qed.
  Lemma never_stops k : stops (F:=F) a d x0 k = false.
  Proof.
    destruct k as [|[|k]].
    - exact (proj2 (next 0 _ _ _ _ eq_refl (round1 _))).
    - destruct (round_bad (fun _ => sum_of_shares N) (map (fun _ => ofZ64 1) (claims ts)) (fun _ _ => trust_bad)) as (u & v & E). exact (proj2 (next 1 _ u v _ scores1 E)).
    - destruct (nan_round (map (fun _ => nan64) (claims ts))) as (u & v & E). exact (proj2 (next _ _ u v _ (scores_nan k) E)).
  Qed.
  Lemma fixed_count clock fuel p n st lg r o' : run (F:=F) clock fuel (AObj (F:=F) a p (IFixed n st) lg) d = (Ok r, o') ->
    r = Result (tdict (F:=F) ts (fst (scores (F:=F) a d x0 (Z.to_nat n)))) (bdict (F:=F) ts (snd (scores (F:=F) a d x0 (Z.to_nat n)))) (n_sub (clock 1%nat) (clock 0%nat)) (Some (Z.to_nat n)).
  Proof.
    intros H. apply (run_cases (F:=F) b None ts d Hb) in H. destruct H as (_ & x1 & k & it' & E0 & El & x & Ef & ->).
    pose proof (init_tf p) as E1. rewrite E0 in E1. injection E1 as ->. injection Ef as <-.
    assert (G : forall fuel j, (Z.of_nat j <= Z.max 0 n)%Z -> it_loop (F:=F) (cmp1 (F:=F) a d x0) (cmp2 (F:=F) a d x0) (stops (F:=F) a d x0) fuel (IFixed n j) j = ((Ok tt, k), it') -> k = Z.to_nat n).
    { pose proof never_stops as NS. clear -NS. induction fuel as [|fu IH]; intros j Hj H; [discriminate|]. cbn [it_loop finished] in H.
      destruct (Z.leb_spec n (Z.of_nat j)); [injection H as <- _; lia|]. rewrite NS in H. cbn [compare] in H. apply IH in H; [exact H|lia]. }
    assert (K : k = Z.to_nat n) by (apply (G fuel 0%nat); [lia|exact El]). subst k. reflexivity.
  Qed.
  (** C64. TruthFinder with its default dampening factor and initial trust, on data where everybody agrees. *)
  (** After one round every source's trust is above 1 although every belief is exactly 1. *)
  Theorem C64_trust_above_one clock fuel p st lg r o' : run (F:=F) clock fuel (AObj (F:=F) a p (IFixed 1 st) lg) d = (Ok r, o') ->
    (forall s, In s (sources ts) -> exists q, trust_of r s = Some q /\ Bltb (ofZ64 1) q = true) /\ (forall c, In c (claims ts) -> belief_of r c = Some (ofZ64 1)).
  Proof.
    intros H. apply fixed_count in H. change (Z.to_nat 1) with 1%nat in H. rewrite scores1 in H.
    pose proof (reports64 L ts r (fun _ => sum_of_shares N) (fun _ => ofZ64 1) ltac:(rewrite H; reflexivity) ltac:(rewrite H; reflexivity)) as Rp.
    pose proof Over as O. unfold overshoots in O. apply andb_true_iff in O. destruct O as [O _].
    split; [intros s Hs; exists (sum_of_shares N); split; [exact (reports_trust ts r _ _ s Rp Hs)|exact O]|intros c Hc; exact (reports_belief ts r _ _ c Rp Hc)].
  Qed.
  (** After two or more rounds the run still succeeds, but every trust and every belief it reports is NaN. *)
  Theorem C64_nan clock fuel p n st lg : p <> BadPrior -> (2 <= n)%Z -> (Z.to_nat n < fuel)%nat ->
    exists r, fst (run (F:=F) clock fuel (AObj (F:=F) a p (IFixed n st) lg) d) = Ok r /\ (forall s, In s (sources ts) -> trust_of r s = Some nan64) /\ (forall c, In c (claims ts) -> belief_of r c = Some nan64).
  Proof.
    intros Hp Hn Hf. destruct (C28_fixed_returns (F:=F) b None ts d Hb clock fuel a p n st lg ne ltac:(discriminate) Hp Hf) as (r & E).
    exists r. split; [exact E|]. destruct (run clock fuel _ d) as [y o'] eqn:E1. cbn [fst] in E. subst y. apply fixed_count in E1.
    assert (K : exists k, Z.to_nat n = Datatypes.S (Datatypes.S k)) by (exists (Z.to_nat n - 2)%nat; lia). destruct K as [k K]. rewrite K, scores_nan in E1.
    pose proof (reports64 L ts r (fun _ => nan64) (fun _ => nan64) ltac:(rewrite E1; reflexivity) ltac:(rewrite E1; reflexivity)) as Rp.
    split; [intros s Hs; exact (reports_trust ts r _ _ s Rp Hs)|intros c Hc; exact (reports_belief ts r _ _ c Rp Hc)].
  Qed.
End C64.

(** 70 sources that all say the same about 9 variables *)
Module TF64Examples.
  Definition lm' : libm := Libm (fun x => if (Bltb x (ofZ64 0) || is_nan x)%bool then nan64 else Bopp (ofZ64 3)) (fun x => if is_nan x then nan64 else ofZ64 0) (fun x _ => x).
  Definition ts : list (nat * nat * nat) := map (fun i => (i / 9, i mod 9, 5)%nat) (seq 0 630).
  Example sane : sane_libm lm'.
  Proof.
    split.
    - intros x H. change ((if (Bltb x (ofZ64 0) || is_nan x)%bool then nan64 else Bopp (ofZ64 3)) = nan64). now rewrite H.
    - reflexivity.
    - reflexivity.
    - cbn [lm_ln lm']. match goal with |- double_in _ _ (if ?c then _ else _) => assert (Q : c = false) by (vm_compute; reflexivity); rewrite Q end.
      destruct (ofZ64_isf 3 ltac:(lia)) as [H1 H2]. split; [now rewrite is_finite_Bopp|]. pose proof (B2R_Bopp 53 1024 (ofZ64 3)) as H3. rewrite H2 in H3. lra.
    - intros x Hx _. assert (Q : is_nan x = false) by (now destruct x). cbn [lm_exp lm']. rewrite Q. destruct zero64 as [Z1 Z2]. split; [exact Z1|]. rewrite Z2. pose proof (bpow_ge_0 radix2 (-53)). lra.
  Qed.
  Example built : exists d, build (F:=B64 lm') false None ts = Ok d.
  Proof.
    destruct (build_strict (F:=B64 lm') None ts) as [(_ & _ & d & E & _)|[(_ & N & _)|(s & x & H & _)]].
    - exists d. exact E.
    - exfalso. apply N. intros c c' q _ _ H. unfold imp_val in H. destruct (_ && _)%bool; discriminate.
    - exfalso. refine (first_repeat_not_NoDup _ _ _ H _). assert (Q : distinct (sv_pairs ts) = sv_pairs ts) by (vm_compute; reflexivity). rewrite <- Q. apply distinct_NoDup.
  Qed.
  Example applies : unanimous ts /\ (70 <= length (sources ts))%nat /\ (Z.of_nat (length (sources ts)) <= 2 ^ 50)%Z /\ overshoots (length (claims ts)) = true /\ (Z.of_nat (length (claims ts)) <= 2 ^ 53)%Z.
  Proof.
    split; [|split; [|split; [|split]]].
    - assert (Q : forallb (fun s => forallb (fun c => says ts s c) (claims ts)) (sources ts) = true) by (vm_compute; reflexivity).
      intros s c Hs Hc. rewrite forallb_forall in Q. specialize (Q s Hs). rewrite forallb_forall in Q. exact (Q c Hc).
    - apply Nat.leb_le. vm_compute. reflexivity.
    - apply Z.leb_le. vm_compute. reflexivity.
    - vm_compute. reflexivity.
    - apply Z.leb_le. vm_compute. reflexivity.
  Qed.
End TF64Examples.
