(** C108: when Sums and AverageLog stop in double arithmetic, run with a ConvergenceIterator on the maximum norm, in terms of the exact scores. *)
From Coq Require Import ZArith Reals Lia Lra Psatz.
From Flocq Require Import Core IEEE754.BinarySingleNaN.
From Verif Require Import Base Num Sparse Spec SpecAlg Dataset DatasetProofs DatasetRep Iterators Algorithms Driver Rounds AlgRep AlgPack Float PropsRun PropsAlg PropsFloat PropsVote64
  PropsStop PropsConv Accuracy PropsAccuracy.
Local Open Scope nat_scope.

(** ** The loop: if some comparison falls below the threshold, the loop ends there at the latest *)
Section Loop.
  Context {F : Num}.
  Variables (a b : nat -> vec F) (brk : nat -> bool) (m : measure) (thr : F) (lim : Z).
  Lemma conv_returns i : (forall j, j <= i -> brk j = false) -> (forall j, j <= i -> exists x, get_distance m (a j) (b j) = Ok x) -> near_at a b brk m thr i -> (Z.of_nat i < lim)%Z ->
    forall fuel j cur, (j <= i \/ (j = Datatypes.S i /\ near thr cur = true)) -> i + 1 < fuel + j -> exists k it', it_loop a b brk fuel (IConv m thr lim j cur) j = ((Ok tt, k), it') /\ k <= Datatypes.S i.
  Proof.
    intros Bk Dist (_ & y & Ey & Hy) Hl. induction fuel as [|n IH]; intros j cur Hj Hf; [destruct Hj as [Hj|[-> _]]; lia|]. cbn [it_loop finished]. fold (near thr cur).
    destruct Hj as [Hj|[-> Hn]].
    - destruct (near thr cur); [exists j; eexists; split; [reflexivity|lia]|]. destruct (Z.leb_spec lim (Z.of_nat j)); [lia|]. rewrite (Bk j Hj). cbn [compare].
      destruct (Dist j Hj) as (x & Ex). rewrite Ex. apply IH; [|lia]. destruct (Nat.eq_dec j i) as [->|]; [right|left; lia]. split; [reflexivity|]. rewrite Ey in Ex. injection Ex as <-. exact Hy.
    - rewrite Hn. exists (Datatypes.S i). eexists. split; [reflexivity|lia].
  Qed.
End Loop.

Local Open Scope R_scope.
(** ** Differences of doubles *)
Lemma rnd_near z : Rabs z <= 2 -> Rabs (rnd z - z) <= bpow radix2 (-52).
Proof.
  intros H. destruct (Req_dec z 0) as [->|Nz].
  - rewrite (rnd_id 0 fmt_0). unfold Rminus. rewrite Rplus_opp_r, Rabs_R0. apply bpow_ge_0.
  - pose proof (error_le_half_ulp radix2 fexp64 (fun n => negb (Z.even n)) z) as Q.
    assert (U : ulp radix2 fexp64 z <= bpow radix2 (-51)).
    { rewrite ulp_neq_0 by exact Nz. apply bpow_le. unfold cexp, SpecFloat.fexp, SpecFloat.emin.
      assert (M : (mag radix2 z <= 2)%Z) by (apply mag_le_bpow; [exact Nz|change (bpow radix2 2) with 4; lra]). lia. }
    change (bpow radix2 (-51)) with (bpow radix2 (1 + -52)) in U. rewrite bpow_plus in U. change (bpow radix2 1) with 2 in U. refine (Rle_trans _ _ _ Q _). lra.
Qed.
Lemma sub_two x y a b : isf x a -> isf y b -> Rabs (a - b) <= 2 -> isf (Bminus mode_NE x y) (rnd (a - b)).
Proof.
  intros [Fx <-] [Fy <-] H. pose proof (Bminus_correct 53 1024 _ _ mode_NE x y Fx Fy) as C.
  assert (F2 : generic_format radix2 fexp64 2) by (change 2 with (bpow radix2 1); apply fmt_bpow; lia).
  rewrite Rlt_bool_true in C.
  - destruct C as (C1 & C2 & _). split; [exact C2|exact C1].
  - apply Rle_lt_trans with 2; [|change 2 with (bpow radix2 1); apply bpow_lt; lia]. apply Rabs_le_inv in H. apply Rabs_le. split; [apply rnd_ge_fmt; [now apply generic_format_opp|lra]|apply rnd_le_fmt; [exact F2|lra]].
Qed.
(** the maximum norm of the difference of two vectors of doubles *)
Lemma linf64 {A} L (t t' : A -> b64) (v v' : A -> R) (l : list A) : l <> [] -> (forall s, In s l -> isf (t s) (v s) /\ isf (t' s) (v' s) /\ Rabs (v s - v' s) <= 2) ->
  exists X q, get_distance (F:=B64 L) L_INF (map t l) (map t' l) = Ok X /\ isf X q /\ (forall s, In s l -> Rabs (v s - v' s) <= q + bpow radix2 (-52)) /\
    exists s, In s l /\ q <= Rabs (v s - v' s) + bpow radix2 (-52).
Proof.
  intros Hl H. cbn [get_distance]. unfold norm_inf, vsub. rewrite zipw_map, map_map. set (g := fun s => @n_abs (B64 L) (@n_sub (B64 L) (t s) (t' s))).
  assert (G : forall s, In s l -> isf (g s) (Rabs (rnd (v s - v' s)))).
  { intros s Hs. destruct (H s Hs) as (H1 & H2 & H3). destruct (sub_two _ _ _ _ H1 H2 H3) as [A1 A2]. unfold g. split.
    - change (is_finite (Babs (Bminus mode_NE (t s) (t' s))) = true). rewrite is_finite_Babs. exact A1.
    - etransitivity; [exact (B2R_Babs 53 1024 (Bminus mode_NE (t s) (t' s)))|]. now f_equal. }
  assert (D : forall s, In s l -> Rabs (Rabs (rnd (v s - v' s)) - Rabs (v s - v' s)) <= bpow radix2 (-52)).
  { intros s Hs. destruct (H s Hs) as (_ & _ & H3). eapply Rle_trans; [apply Rabs_triang_inv2|]. now apply rnd_near. }
  assert (Fn : forall y, In y (map g l) -> exists q, isf y q) by (intros y Hy; apply in_map_iff in Hy; destruct Hy as (s & <- & Hs); eauto).
  destruct (pymax64 L (map g l)) as (X & q & E & Hm & Hin & Hall); [destruct l; cbn; congruence|exact Fn|].
  assert (EN : npmax (F:=B64 L) (map g l) = Some X) by (etransitivity; [exact (npmax64 L _ Fn)|exact E]).
  exists X, q. split; [exact (f_equal (fun o => match o with Some z => Ok z | None => Err EmptySequence end) EN)|]. split; [exact Hm|]. split.
  - intros s Hs. pose proof (Hall _ _ (in_map g l s Hs) (G s Hs)). pose proof (Rabs_le_inv _ _ (D s Hs)). lra.
  - apply in_map_iff in Hin. destruct Hin as (s & Es & Hs). exists s. split; [exact Hs|]. pose proof (G s Hs) as Gs. rewrite Es in Gs. pose proof (isf_fun _ _ _ Hm Gs). pose proof (Rabs_le_inv _ _ (D s Hs)). lra.
Qed.

(** ** Specification: how far a round moves the exact trust scores *)
Section Movement.
  Context {S V W : Type} {ES : Eqb S} {EV : Eqb V} {EW : Eqb W}.
  Variables (ts : list (S * V * W)) (x : nat -> @rscores S V W).
  (** round j moves every trust score by less than m *)
  Definition moves_less (j : nat) (m : R) : Prop := forall s, In s (sources ts) -> Rabs (fst (x j) s - fst (x (j - 1)%nat) s) < m.
  (** round j moves some trust score by at least m *)
  Definition moves_some (j : nat) (m : R) : Prop := exists s, In s (sources ts) /\ m <= Rabs (fst (x j) s - fst (x (j - 1)%nat) s).
End Movement.

Section Engine.
  Context {S V W : Type} {ES : Eqb S} {EV : Eqb V} {EW : Eqb W}.
  Variable L : libm.
  Notation F := (B64 L).
  Variables (b : bool) (f : option (V -> W -> W -> option F)) (ts : list (S * V * W)) (d : dataset S V W F).
  Hypothesis Hb : build (F:=F) b f ts = Ok d.
  Hypothesis NE : ts <> [].
  Variables (a : alg F) (p : prior) (X0 : vec F * vec F) (x : nat -> @rscores S V W) (e : nat -> R) (K : nat).
  Hypothesis Ha : a = Sums \/ a = AverageLog.
  Hypothesis E0 : init (F:=F) a p d = Some X0.
  Hypothesis Acc : forall j, (j <= K)%nat -> exists t, fst (scores (F:=F) a d X0 j) = map t (sources ts) /\
    forall s, In s (sources ts) -> exists v, isf (t s) v /\ 0 <= v <= 2 /\ Rabs (v - fst (x j) s) <= e j.
  Hypothesis Mono : forall j, e j <= e (Datatypes.S j).
  Hypothesis Big : forall j, bpow radix2 (-52) <= e j.

  Lemma not_unbounded : a <> UnboundedSums.
  Proof. clear - Ha. destruct Ha as [-> | ->]; discriminate. Qed.
  Lemma never_stops j : stops (F:=F) a d X0 j = false.
  Proof.
    clear - Ha. unfold stops. destruct (scores (F:=F) a d X0 j) as [t bl]. destruct Ha as [-> | ->]; cbn [round]; unfold sums_upd, avlog_upd; cbv zeta.
    all: repeat match goal with |- context [match ?e with Some _ => _ | None => _ end] => destruct e; try reflexivity end; reflexivity.
  Qed.
  Lemma distance_near j : (Datatypes.S j <= K)%nat -> exists X q, get_distance (F:=F) L_INF (cmp1 (F:=F) a d X0 j) (cmp2 (F:=F) a d X0 j) = Ok X /\ isf X q /\
    (forall m, q < m -> moves_less ts x (Datatypes.S j) (m + 3 * e (Datatypes.S j))) /\ (forall m, m <= q -> moves_some ts x (Datatypes.S j) (m - 3 * e (Datatypes.S j))).
  Proof.
    intros Hj. destruct (Acc j ltac:(lia)) as (t & Et & At). destruct (Acc (Datatypes.S j) Hj) as (t' & Et' & At').
    assert (Hl : sources ts <> []) by exact (src_ne ts NE).
    set (v := fun s => B2R64 (t s)). set (v' := fun s => B2R64 (t' s)).
    assert (P : forall s, In s (sources ts) -> isf (t s) (v s) /\ isf (t' s) (v' s) /\ Rabs (v s - v' s) <= 2 /\ Rabs (v' s - v s) <= 2 /\
      Rabs (Rabs (v' s - v s) - Rabs (fst (x (Datatypes.S j)) s - fst (x j) s)) <= 2 * e (Datatypes.S j)).
    { intros s Hs. destruct (At s Hs) as (w & [F1 Q1] & B1 & A1). destruct (At' s Hs) as (w' & [F2 Q2] & B2 & A2). unfold v, v'. rewrite Q1, Q2.
      split; [now split|]. split; [now split|]. split; [apply Rabs_le; lra|]. split; [apply Rabs_le; lra|].
      eapply Rle_trans; [apply Rabs_triang_inv2|]. apply Rabs_le_inv in A1, A2. pose proof (Mono j). apply Rabs_le. lra. }
    assert (Q : exists X q, get_distance (F:=F) L_INF (cmp1 (F:=F) a d X0 j) (cmp2 (F:=F) a d X0 j) = Ok X /\ isf X q /\ (forall s, In s (sources ts) -> Rabs (v' s - v s) <= q + bpow radix2 (-52)) /\
       exists s, In s (sources ts) /\ q <= Rabs (v' s - v s) + bpow radix2 (-52)).
    { destruct (cmp_trusts (F:=F) b f ts d Hb a p not_unbounded X0 j E0 NE (never_stops j)) as [[C1 C2]|[C1 C2]]; rewrite C1, C2.
      - rewrite Et, Et'. destruct (linf64 L t t' v v' (sources ts) Hl) as (X & q & H1 & H2 & H3 & s & Hs & H4); [intros s Hs; destruct (P s Hs) as (P1 & P2 & P3 & _); tauto|].
        exists X, q. split; [exact H1|]. split; [exact H2|]. split; [intros s' Hs'; rewrite Rabs_minus_sym; now apply H3|]. exists s. split; [exact Hs|]. now rewrite Rabs_minus_sym.
      - rewrite Et, Et'. destruct (linf64 L t' t v' v (sources ts) Hl) as (X & q & H1 & H2 & H3 & s & Hs & H4); [intros s Hs; destruct (P s Hs) as (P1 & P2 & _ & P3 & _); tauto|].
        exists X, q. split; [exact H1|]. split; [exact H2|]. split; [exact H3|]. exists s. split; [exact Hs|exact H4]. }
    destruct Q as (X & q & H1 & H2 & H3 & s & Hs & H4). exists X, q. split; [exact H1|]. split; [exact H2|]. pose proof (Big (Datatypes.S j)) as Bg. split.
    - intros m Hm s' Hs'. replace (Datatypes.S j - 1)%nat with j by lia. destruct (P s' Hs') as (_ & _ & _ & _ & D). apply Rabs_le_inv in D. pose proof (H3 s' Hs'). lra.
    - intros m Hm. exists s. split; [exact Hs|]. replace (Datatypes.S j - 1)%nat with j by lia. destruct (P s Hs) as (_ & _ & _ & _ & D). apply Rabs_le_inv in D. lra.
  Qed.
  Variables (thr : b64) (T : R) (lim : Z).
  Hypothesis Ht : isf thr T.
  Notation c1 := (cmp1 (F:=F) a d X0).
  Notation c2 := (cmp2 (F:=F) a d X0).
  Notation st := (stops (F:=F) a d X0).
  Lemma near_moves j : (Datatypes.S j <= K)%nat -> near_at (F:=F) c1 c2 st L_INF thr j -> moves_less ts x (Datatypes.S j) (T + 3 * e (Datatypes.S j)).
  Proof.
    intros Hj (_ & y & Ey & Hy). destruct (distance_near j Hj) as (X & q & H1 & H2 & H3 & _). pose proof (eq_trans (eq_sym H1) Ey) as H9. injection H9 as H9. subst y.
    apply H3. change (Bltb X thr = true) in Hy. rewrite (ltb64 _ _ _ _ H2 Ht) in Hy. destruct (rltb_spec q T); [assumption|discriminate].
  Qed.
  Lemma far_moves j : (Datatypes.S j <= K)%nat -> far_at (F:=F) c1 c2 st L_INF thr j -> moves_some ts x (Datatypes.S j) (T - 3 * e (Datatypes.S j)).
  Proof.
    intros Hj (_ & y & Ey & Hy). destruct (distance_near j Hj) as (X & q & H1 & H2 & _ & H3). pose proof (eq_trans (eq_sym H1) Ey) as H9. injection H9 as H9. subst y.
    apply H3. change (Bltb X thr = false) in Hy. rewrite (ltb64 _ _ _ _ H2 Ht) in Hy. destruct (rltb_spec q T); [discriminate|lra].
  Qed.
  Lemma moves_near j : (Datatypes.S j <= K)%nat -> moves_less ts x (Datatypes.S j) (T - 3 * e (Datatypes.S j)) -> near_at (F:=F) c1 c2 st L_INF thr j.
  Proof.
    intros Hj H. split; [apply never_stops|]. destruct (distance_near j Hj) as (X & q & H1 & H2 & _ & H3). exists X. split; [exact H1|]. change (Bltb X thr = true). rewrite (ltb64 _ _ _ _ H2 Ht).
    destruct (rltb_spec q T) as [|Q]; [reflexivity|]. exfalso. destruct (H3 T ltac:(lra)) as (s & Hs & Hm). specialize (H s Hs). lra.
  Qed.
  Lemma engine_stops clock fuel n cur lg r o' : run (F:=F) clock fuel (AObj a p (IConv (F:=F) L_INF thr lim n cur) lg) d = (Ok r, o') ->
    exists k, r_iterations r = Some k /\ (1 <= k)%nat /\ ((k <= K)%nat -> moves_less ts x k (T + 3 * e k)) /\ forall j, (1 <= j < k)%nat -> (j <= K)%nat -> moves_some ts x j (T - 3 * e j).
  Proof.
    intros H. apply (run_cases (F:=F) b f ts d Hb) in H. destruct H as (_ & x0 & k & it' & E1 & El & y & Ef & Er). pose proof (eq_trans (eq_sym E0) E1) as H9. injection H9 as H9. subst x0.
    exists k. split; [rewrite Er; reflexivity|]. cbn [reset] in El. apply conv_loop in El. destruct El as [[Q _]|[_ [(i & -> & _ & Na & Fa)|(_ & _ & Bk & _)]]]; [discriminate| |].
    - split; [lia|]. split; [intros Hk; now apply near_moves|]. intros [|j] Hj Hk; [lia|]. apply far_moves; [exact Hk|]. apply Fa. lia.
    - rewrite never_stops in Bk. discriminate.
  Qed.
  Lemma engine_returns N clock fuel n cur lg : (1 <= N <= K)%nat -> (Z.of_nat N <= lim)%Z -> (N < fuel)%nat -> moves_less ts x N (T - 3 * e N) ->
    exists r o' k, run (F:=F) clock fuel (AObj a p (IConv (F:=F) L_INF thr lim n cur) lg) d = (Ok r, o') /\ r_iterations r = Some k /\ (k <= N)%nat.
  Proof.
    intros HN Hl Hf H. destruct N as [|i]; [lia|]. pose proof (moves_near i ltac:(lia) H) as Na.
    destruct (conv_returns (F:=F) c1 c2 st L_INF thr lim i (fun j _ => never_stops j) (fun j Hj => match distance_near j ltac:(lia) with ex_intro _ X (ex_intro _ _ (conj E _)) => ex_intro _ X E end) Na ltac:(lia) fuel 0%nat None ltac:(lia) ltac:(lia)) as (k & it' & El & Hk).
    assert (E : exists r o', run (F:=F) clock fuel (AObj a p (IConv (F:=F) L_INF thr lim n cur) lg) d = (Ok r, o')).
    { rewrite (run_char clock ts f d (build_rep _ _ _ _ Hb) NE), E0. cbn [reset]. rewrite El. destruct Ha as [-> | ->]; cbn [final]; eexists _, _; reflexivity. }
    destruct E as (r & o' & E). exists r, o', k. split; [exact E|]. split; [|exact Hk].
    apply (run_cases (F:=F) b f ts d Hb) in E. destruct E as (_ & x0 & k' & it2 & E1 & El2 & y & Ef & Er). pose proof (eq_trans (eq_sym E0) E1) as H9. injection H9 as H9. subst x0.
    cbn [reset] in El2. pose proof (eq_trans (eq_sym El) El2) as H9. injection H9 as -> _. now rewrite Er.
  Qed.
  Lemma engine_fails clock fuel n cur lg : fst (run (F:=F) clock fuel (AObj a p (IConv (F:=F) L_INF thr lim n cur) lg) d) = Err ConvergenceError ->
    forall j, (1 <= j <= K)%nat -> (Z.of_nat j <= lim)%Z -> moves_some ts x j (T - 3 * e j).
  Proof.
    intros H [|j] Hj Hl; [lia|]. rewrite (run_char clock ts f d (build_rep _ _ _ _ Hb) NE), E0 in H. cbn [reset] in H. destruct (it_loop _ _ _ fuel _ 0) as [[[u|er] k] it'] eqn:El; cbn [fst] in H.
    - destruct (final a it' _) as [y|er] eqn:Ef; [discriminate|]. cbn [fst] in H. injection H as ->. exfalso. destruct Ha as [-> | ->]; cbn in Ef; discriminate.
    - injection H as ->. apply far_moves; [lia|]. apply (conv_loop_err _ _ _ _ _ _ _ _ _ _ _ El); lia.
  Qed.
End Engine.

(** ** The theorems *)
Section C108.
  Context {S V W : Type} {ES : Eqb S} {EV : Eqb V} {EW : Eqb W}.
  Variable L : libm.
  Notation F := (B64 L).
  Variables (b : bool) (f : option (V -> W -> W -> option F)) (ts : list (S * V * W)) (d : dataset S V W F).
  Hypothesis Hb : build (F:=F) b f ts = Ok d.
  Notation NS := (length (sources ts)).
  Notation NC := (length (claims ts)).
  (** three times the relative error of C73 after j rounds; the bounds of C73 *)
  Definition margin (c j : nat) : R := 3 * (INR ((j + 1) * (NS + NC + c)) / 2 ^ 50).
  Definition in_bounds (c q j : nat) : Prop := (Z.of_nat ((j + 1) * (NS + NC + c)) <= 2 ^ 50)%Z /\ (Z.of_nat q ^ Z.of_nat (j + 1) <= 2 ^ 900)%Z.

  Lemma in_bounds_le c q j k : (1 <= q)%nat -> (j <= k)%nat -> in_bounds c q k -> in_bounds c q j.
  Proof.
    intros Hq H [B1 B2]. split; [nia|]. eapply Z.le_trans; [|exact B2]. apply Z.pow_le_mono_r; lia.
  Qed.
  Definition err (c j : nat) : R := INR ((j + 1) * (NS + NC + c)) / 2 ^ 50.
  Lemma err_mono c j : err c j <= err c (Datatypes.S j).
  Proof. unfold err. apply Rmult_le_compat_r; [apply Rlt_le, Rinv_0_lt_compat, pow_lt; lra|]. apply le_INR. nia. Qed.
  Lemma err_big c j : (1 <= c)%nat -> bpow radix2 (-52) <= err c j.
  Proof.
    intros Hc. unfold err. assert (P : 1 <= INR ((j + 1) * (NS + NC + c))) by (apply (le_INR 1); nia). change (bpow radix2 (-52)) with (/ IZR (2 ^ 52)).
    replace (2 ^ 50) with (IZR (2 ^ 50)) by (rewrite (pow_IZR 2 50); f_equal). assert (/ IZR (2 ^ 52) <= / IZR (2 ^ 50)) by (apply Rinv_le; [lra|apply IZR_le; lia]).
    assert (0 < / IZR (2 ^ 50)) by (apply Rinv_0_lt_compat; lra). unfold Rdiv. nra.
  Qed.
  Lemma err_small c q j : in_bounds c q j -> err c j <= 1.
  Proof.
    intros [B _]. unfold err. rewrite INR_IZR_INZ. apply IZR_le in B. replace (2 ^ 50) with (IZR (2 ^ 50)) by (rewrite (pow_IZR 2 50); f_equal).
    assert (0 < IZR (2 ^ 50)) by lra. apply Rmult_le_reg_r with (IZR (2 ^ 50)); [assumption|]. unfold Rdiv. rewrite Rmult_assoc, Rinv_l by lra. lra.
  Qed.
  Lemma exact_range (a : alg XR) p x0 : ts <> [] -> converging ts a -> start ts a p = Some x0 -> forall j s, In s (sources ts) -> 0 <= fst (rounds (step_of None ts a) x0 (Datatypes.S j)) s <= 1.
  Proof.
    intros NE Hc E0 j s Hs. assert (Hp : params_ok a) by (destruct Hc as [->|[-> _]]; exact I).
    destruct (build_allow (F:=XR) None ts) as [(_ & dx & Ex & _)|[N _]]; [|exfalso; apply N; intros c c' q _ _ H; unfold imp_val in H; destruct (_ && _)%bool; discriminate].
    exact (proj1 (x_range true None ts dx Ex a x0 NE Hc (pack_start_good ts a p x0 Hp E0) j) s Hs).
  Qed.
  Lemma exact_still (a : alg XR) p x0 : ts <> [] -> converging ts a -> start ts a p = Some x0 -> forall m, 0 < m -> exists N, (1 <= N)%nat /\ moves_less ts (rounds (step_of None ts a) x0) N m.
  Proof.
    intros NE Hc E0 m Hm. assert (Hp : params_ok a) by (destruct Hc as [->|[-> _]]; exact I).
    destruct (build_allow (F:=XR) None ts) as [(_ & dx & Ex & _)|[N _]]; [|exfalso; apply N; intros c c' q _ _ H; unfold imp_val in H; destruct (_ && _)%bool; discriminate].
    destruct (limit_fixed true None ts dx Ex a x0 NE Hc (pack_start_good ts a p x0 Hp E0)) as (z & Cs & _).
    assert (G : forall l, (forall s, In s l -> In s (sources ts)) -> exists N, forall j, (N <= j)%nat -> forall s, In s l -> Rabs (fst (rounds (step_of None ts a) x0 j) s - fst z s) < m / 2).
    { induction l as [|s l IH]; intros Hl; [exists 0%nat; intros j _ s []|]. destruct IH as (N1 & H1); [intros s' Hs'; apply Hl; now right|].
      destruct (Cs s (Hl s (or_introl eq_refl)) (m / 2) ltac:(lra)) as (N2 & H2). exists (Nat.max N1 N2). intros j Hj s' [<-|Hs']; [apply H2; lia|apply H1; [lia|exact Hs']]. }
    destruct (G (sources ts) (fun _ H => H)) as (N & H). exists (Datatypes.S N). split; [lia|]. intros s Hs. replace (Datatypes.S N - 1)%nat with N by lia.
    pose proof (H (Datatypes.S N) ltac:(lia) s Hs) as A1. pose proof (H N (le_n N) s Hs) as A2. apply Rabs_def2 in A1, A2. apply Rabs_def1; lra.
  Qed.
  Lemma near_exact c q j r v x : in_bounds c q j -> isf v r -> 0 <= x <= 1 -> rel (2 * ((j + 1) * (NS + NC + c))) r x -> 0 <= r <= 2 /\ Rabs (r - x) <= err c j.
  Proof.
    intros B Hv Hx Hr. destruct (rel_accurate (2 * ((j + 1) * (NS + NC + c))) x r v ltac:(destruct B as [B _]; lia) Hv Hr) as [_ A]. rewrite err_eq in A. fold (err c j) in A. rewrite (proj2 Hv) in A.
    pose proof (err_small c q j B) as E1. assert (E2 : 0 <= err c j) by (unfold err; apply Rmult_le_pos; [apply pos_INR|apply Rlt_le, Rinv_0_lt_compat, pow_lt; lra]).
    assert (A' : Rabs (r - x) <= err c j) by (eapply Rle_trans; [exact A|]; nra). split; [|exact A']. apply Rabs_le_inv in A'. destruct Hr as (R0 & _). lra.
  Qed.
  Lemma zeros_near (x : @rscores S V W) e (X0 : vec F * vec F) : num_sources d = NS -> fst X0 = vzeros (F:=F) (num_sources d) -> (forall s, fst x s = 0) -> 0 <= e ->
    exists t : S -> b64, fst X0 = map t (sources ts) /\ forall s, In s (sources ts) -> exists v, isf (t s) v /\ 0 <= v <= 2 /\ Rabs (v - fst x s) <= e.
  Proof.
    intros En E0 Ex He. exists (fun _ => ofZ64 0). split.
    - rewrite E0, En. unfold vzeros, vfull. clear. induction (sources ts) as [|s l IH]; [reflexivity|]. cbn [length repeat map]. now rewrite IH.
    - intros s _. exists 0. split; [exact zero64|]. split; [lra|]. rewrite Ex, Rminus_0_r, Rabs_R0. exact He.
  Qed.

  Section Sums.
    Variables (p : prior) (x0 : V * W -> R).
    Hypothesis Ep : prior_spec ts p = Some x0.
    Notation x := (rounds (sums_step ts) ((fun _ => 0), x0)).
    Lemma sums_acc X0 K : ts <> [] -> init (F:=F) Sums p d = Some X0 -> in_bounds 1 (NS * NC) K -> forall j, (j <= K)%nat ->
      exists t, fst (scores (F:=F) Sums d X0 j) = map t (sources ts) /\ forall s, In s (sources ts) -> exists v, isf (t s) v /\ 0 <= v <= 2 /\ Rabs (v - fst (x j) s) <= err 1 j.
    Proof.
      intros NE E0 BK j Hj. assert (Q1 : (1 <= NS * NC)%nat) by (pose proof (src_ne ts NE); pose proof (cl_ne ts NE); destruct (sources ts), (claims ts); cbn [length]; try congruence; lia).
      pose proof (in_bounds_le 1 _ j K Q1 Hj BK) as Bj. destruct j as [|j].
      - apply zeros_near; [exact (rep_ns _ _ _ (build_rep _ _ _ _ Hb))| |reflexivity|eapply Rle_trans; [|apply (err_big 1 0); lia]; apply bpow_ge_0].
        cbn [scores]. cbn [init] in E0. destruct (prior_beliefs p d); [|discriminate]. cbn in E0. injection E0 as <-. reflexivity.
      - pose proof Bj as [B1 B2]. apply pow_bound in B2. rewrite mult_INR in B2.
        destruct (sums_scores_rel L b f ts d Hb NE ltac:(nia) ltac:(nia) ltac:(nia) p X0 x0 E0 Ep (Datatypes.S j) ltac:(nia) B2) as (t & g & E & _ & Hn). destruct (Hn ltac:(discriminate)) as (t' & -> & H1 & _).
        exists t'. rewrite E. split; [reflexivity|]. intros s Hs. destruct (H1 s Hs) as (r & A1 & A2). exists r. split; [exact A1|].
        apply (near_exact 1 (NS * NC) (Datatypes.S j) r (t' s)); [exact Bj|exact A1| |exact A2].
        apply (exact_range Sums p ((fun _ => 0), x0) NE (or_introl eq_refl)); [cbn [start]; rewrite Ep; reflexivity|exact Hs].
    Qed.
    Lemma sums_start : exists X0, init (F:=F) Sums p d = Some X0.
    Proof. cbn [init]. destruct p; cbn [prior_spec prior_beliefs option_map] in *; try discriminate; eexists; reflexivity. Qed.
    Variables (thr : b64) (T : R) (lim : Z).
    Hypothesis Ht : isf thr T.

    (** A run that returns after k rounds: the exact scores moved by less than the threshold and the margin in round k, and by at least the
        threshold without the margin in every round before. *)
    Theorem C108_sums_stops clock fuel n cur lg r o' : run (F:=F) clock fuel (AObj Sums p (IConv (F:=F) L_INF thr lim n cur) lg) d = (Ok r, o') ->
      exists k, r_iterations r = Some k /\ (1 <= k)%nat /\ (in_bounds 1 (NS * NC) k -> moves_less ts x k (T + margin 1 k)) /\
        forall j, (1 <= j < k)%nat -> in_bounds 1 (NS * NC) j -> moves_some ts x j (T - margin 1 j).
    Proof.
      intros H. pose proof H as H0. apply (run_cases (F:=F) b f ts d Hb) in H0. destruct H0 as (NE & X0 & k & it' & E0 & _ & y & _ & Er). assert (Ek : r_iterations r = Some k) by (rewrite Er; reflexivity).
      pose proof (fun K BK => engine_stops L b f ts d Hb NE Sums p X0 x (err 1) K (or_introl eq_refl) E0 (sums_acc X0 K NE E0 BK) (err_mono 1) (fun j => err_big 1 j (le_n 1)) thr T lim Ht clock fuel n cur lg r o' H) as G.
      exists k. split; [exact Ek|]. split; [|split].
      - destruct k as [|k]; [|lia]. exfalso. apply (run_cases (F:=F) b f ts d Hb) in H. destruct H as (_ & X1 & k1 & it1 & E1 & El & y1 & _ & Er1). assert (k1 = 0%nat) by (rewrite Er1 in Ek; cbn [r_iterations] in Ek; congruence). subst k1.
        cbn [reset] in El. apply conv_loop in El. destruct El as [[Q _]|[_ [(i & Q & _)|(_ & _ & Bk & _)]]]; [discriminate|discriminate|]. rewrite never_stops in Bk; [discriminate|now left].
      - intros BK. destruct (G k BK) as (k' & Ek' & _ & G1 & _). rewrite Ek in Ek'. injection Ek' as <-. apply G1. lia.
      - intros j Hj BK. destruct (G j BK) as (k' & Ek' & _ & _ & G2). rewrite Ek in Ek'. injection Ek' as <-. apply G2; lia.
    Qed.
    (** If some permitted round N moves the exact scores by less than the threshold without the margin, the run returns, after at most N rounds. *)
    Theorem C108_sums_returns N clock fuel n cur lg : ts <> [] -> (1 <= N)%nat -> (Z.of_nat N <= lim)%Z -> (N < fuel)%nat -> in_bounds 1 (NS * NC) N -> moves_less ts x N (T - margin 1 N) ->
      exists r o' k, run (F:=F) clock fuel (AObj Sums p (IConv (F:=F) L_INF thr lim n cur) lg) d = (Ok r, o') /\ r_iterations r = Some k /\ (k <= N)%nat.
    Proof.
      intros NE H1 H2 H3 BK H. destruct sums_start as (X0 & E0).
      exact (engine_returns L b f ts d Hb NE Sums p X0 x (err 1) N (or_introl eq_refl) E0 (sums_acc X0 N NE E0 BK) (err_mono 1) (fun j => err_big 1 j (le_n 1)) thr T lim Ht N clock fuel n cur lg (conj H1 (le_n N)) H2 H3 H).
    Qed.
    (** A run that raises ConvergenceError: every permitted round moves the exact scores by at least the threshold without the margin. *)
    Theorem C108_sums_fails clock fuel n cur lg : fst (run (F:=F) clock fuel (AObj Sums p (IConv (F:=F) L_INF thr lim n cur) lg) d) = Err ConvergenceError ->
      forall j, (1 <= j)%nat -> (Z.of_nat j <= lim)%Z -> in_bounds 1 (NS * NC) j -> moves_some ts x j (T - margin 1 j).
    Proof.
      intros H j H1 H2 BK. destruct sums_start as (X0 & E0). assert (NE : ts <> []).
      { intros Q. pose proof (proj1 (proj1 (C26_empty (F:=F) b f ts d Hb clock fuel (AObj Sums p (IConv (F:=F) L_INF thr lim n cur) lg)) Q)) as Q1. rewrite Q1 in H. discriminate. }
      exact (engine_fails L b f ts d Hb NE Sums p X0 x (err 1) j (or_introl eq_refl) E0 (sums_acc X0 j NE E0 BK) (err_mono 1) (fun i => err_big 1 i (le_n 1)) thr T lim Ht clock fuel n cur lg H j (conj H1 (le_n j)) H2).
    Qed.

    (** In exact arithmetic the movements of the rounds tend to 0 (C60); so there is a number N of rounds, for every threshold, such that
        if N is within bounds and its margin is less than half the threshold, then every run that may make N rounds returns. *)
    Theorem C108_sums_terminates : ts <> [] -> 0 < T -> exists N, (1 <= N)%nat /\ moves_less ts x N (T / 2) /\
      (in_bounds 1 (NS * NC) N -> margin 1 N <= T / 2 -> (Z.of_nat N <= lim)%Z -> forall clock fuel n cur lg, (N < fuel)%nat ->
       exists r o' k, run (F:=F) clock fuel (AObj Sums p (IConv (F:=F) L_INF thr lim n cur) lg) d = (Ok r, o') /\ r_iterations r = Some k /\ (k <= N)%nat).
    Proof.
      intros NE PT. destruct (exact_still Sums p ((fun _ => 0), x0) NE (or_introl eq_refl) ltac:(cbn [start]; rewrite Ep; reflexivity) (T / 2) ltac:(lra)) as (N & HN & M). exists N. split; [exact HN|]. split; [exact M|].
      intros B Mg Hl clock fuel n cur lg Hf. apply (C108_sums_returns N clock fuel n cur lg NE HN Hl Hf B). intros s Hs. specialize (M s Hs). cbn beta in M |- *. change (rounds (step_of None ts Sums)) with (rounds (sums_step ts)) in M. lra.
    Qed.
  End Sums.

  (** The same for AverageLog, if some source makes at least two claims and the C library's logarithm is right to a relative error of 2^-52. *)
  Section AvLog.
    Variables (p : prior) (x0 : V * W -> R).
    Hypothesis Ep : prior_spec ts p = Some x0.
    Hypothesis Two : someone_claims_two ts.
    Hypothesis Hlog : forall n, (1 <= n <= NC)%nat -> accurate (/ 2 ^ 52) (ln (INR n)) (lm_ln L (ofZ64 (Z.of_nat n))).
    Notation x := (rounds (avlog_step ts) ((fun _ => 0), x0)).
    Lemma one_five : (1 <= 5)%nat. Proof. lia. Qed.
    Lemma log_acc : log_accurate L ts.
    Proof. intros n Hn. specialize (Hlog n Hn). replace (bpow radix2 (-52)) with (/ 2 ^ 52); [exact Hlog|]. change (-52)%Z with (Z.opp 52). rewrite bpow_opp. f_equal. change (bpow radix2 52) with (IZR (2 ^ 52)). rewrite (pow_IZR 2 52). f_equal. Qed.
    Lemma two : exists s, (2 <= length (claims_of ts s))%nat. Proof. destruct Two as (s & _ & Q); eauto. Qed.
    Lemma avlog_acc X0 K : ts <> [] -> init (F:=F) AverageLog p d = Some X0 -> in_bounds 5 (NS * NC * NC) K -> forall j, (j <= K)%nat ->
      exists t, fst (scores (F:=F) AverageLog d X0 j) = map t (sources ts) /\ forall s, In s (sources ts) -> exists v, isf (t s) v /\ 0 <= v <= 2 /\ Rabs (v - fst (x j) s) <= err 5 j.
    Proof.
      intros NE E0 BK j Hj. assert (Q1 : (1 <= NS * NC * NC)%nat) by (pose proof (src_ne ts NE); pose proof (cl_ne ts NE); destruct (sources ts), (claims ts); cbn [length]; try congruence; lia).
      pose proof (in_bounds_le 5 _ j K Q1 Hj BK) as Bj. destruct j as [|j].
      - apply zeros_near; [exact (rep_ns _ _ _ (build_rep _ _ _ _ Hb))| |reflexivity|eapply Rle_trans; [|apply (err_big 5 0); lia]; apply bpow_ge_0].
        cbn [scores]. cbn [init] in E0. destruct (prior_beliefs p d); [|discriminate]. cbn in E0. injection E0 as <-. reflexivity.
      - pose proof Bj as [B1 B2]. apply pow_bound in B2. rewrite !mult_INR in B2.
        destruct (avlog_scores_rel L b f ts d Hb NE ltac:(nia) ltac:(nia) ltac:(nia) log_acc two p X0 x0 E0 Ep (Datatypes.S j) ltac:(nia) B2) as (t & g & E & _ & _ & Hn). destruct (Hn ltac:(discriminate)) as (t' & -> & H1 & _).
        exists t'. rewrite E. split; [reflexivity|]. intros s Hs. destruct (H1 s Hs) as (r & A1 & A2). exists r. split; [exact A1|].
        apply (near_exact 5 (NS * NC * NC) (Datatypes.S j) r (t' s)); [exact Bj|exact A1| |exact A2].
        apply (exact_range AverageLog p ((fun _ => 0), x0) NE (or_intror (conj eq_refl Two))); [cbn [start]; rewrite Ep; reflexivity|exact Hs].
    Qed.
    Lemma avlog_start : exists X0, init (F:=F) AverageLog p d = Some X0.
    Proof. cbn [init]. destruct p; cbn [prior_spec prior_beliefs option_map] in *; try discriminate; eexists; reflexivity. Qed.
    Variables (thr : b64) (T : R) (lim : Z).
    Hypothesis Ht : isf thr T.

    (** A run that returns after k rounds: the exact scores moved by less than the threshold and the margin in round k, and by at least the
        threshold without the margin in every round before. *)
    Theorem C108_average_log_stops clock fuel n cur lg r o' : run (F:=F) clock fuel (AObj AverageLog p (IConv (F:=F) L_INF thr lim n cur) lg) d = (Ok r, o') ->
      exists k, r_iterations r = Some k /\ (1 <= k)%nat /\ (in_bounds 5 (NS * NC * NC) k -> moves_less ts x k (T + margin 5 k)) /\
        forall j, (1 <= j < k)%nat -> in_bounds 5 (NS * NC * NC) j -> moves_some ts x j (T - margin 5 j).
    Proof.
      intros H. pose proof H as H0. apply (run_cases (F:=F) b f ts d Hb) in H0. destruct H0 as (NE & X0 & k & it' & E0 & _ & y & _ & Er). assert (Ek : r_iterations r = Some k) by (rewrite Er; reflexivity).
      pose proof (fun K BK => engine_stops L b f ts d Hb NE AverageLog p X0 x (err 5) K (or_intror eq_refl) E0 (avlog_acc X0 K NE E0 BK) (err_mono 5) (fun j => err_big 5 j one_five) thr T lim Ht clock fuel n cur lg r o' H) as G.
      exists k. split; [exact Ek|]. split; [|split].
      - destruct k as [|k]; [|lia]. exfalso. apply (run_cases (F:=F) b f ts d Hb) in H. destruct H as (_ & X1 & k1 & it1 & E1 & El & y1 & _ & Er1). assert (k1 = 0%nat) by (rewrite Er1 in Ek; cbn [r_iterations] in Ek; congruence). subst k1.
        cbn [reset] in El. apply conv_loop in El. destruct El as [[Q _]|[_ [(i & Q & _)|(_ & _ & Bk & _)]]]; [discriminate|discriminate|]. rewrite never_stops in Bk; [discriminate|now right].
      - intros BK. destruct (G k BK) as (k' & Ek' & _ & G1 & _). rewrite Ek in Ek'. injection Ek' as <-. apply G1. lia.
      - intros j Hj BK. destruct (G j BK) as (k' & Ek' & _ & _ & G2). rewrite Ek in Ek'. injection Ek' as <-. apply G2; lia.
    Qed.
    (** If some permitted round N moves the exact scores by less than the threshold without the margin, the run returns, after at most N rounds. *)
    Theorem C108_average_log_returns N clock fuel n cur lg : ts <> [] -> (1 <= N)%nat -> (Z.of_nat N <= lim)%Z -> (N < fuel)%nat -> in_bounds 5 (NS * NC * NC) N -> moves_less ts x N (T - margin 5 N) ->
      exists r o' k, run (F:=F) clock fuel (AObj AverageLog p (IConv (F:=F) L_INF thr lim n cur) lg) d = (Ok r, o') /\ r_iterations r = Some k /\ (k <= N)%nat.
    Proof.
      intros NE H1 H2 H3 BK H. destruct avlog_start as (X0 & E0).
      exact (engine_returns L b f ts d Hb NE AverageLog p X0 x (err 5) N (or_intror eq_refl) E0 (avlog_acc X0 N NE E0 BK) (err_mono 5) (fun j => err_big 5 j one_five) thr T lim Ht N clock fuel n cur lg (conj H1 (le_n N)) H2 H3 H).
    Qed.
    (** A run that raises ConvergenceError: every permitted round moves the exact scores by at least the threshold without the margin. *)
    Theorem C108_average_log_fails clock fuel n cur lg : fst (run (F:=F) clock fuel (AObj AverageLog p (IConv (F:=F) L_INF thr lim n cur) lg) d) = Err ConvergenceError ->
      forall j, (1 <= j)%nat -> (Z.of_nat j <= lim)%Z -> in_bounds 5 (NS * NC * NC) j -> moves_some ts x j (T - margin 5 j).
    Proof.
      intros H j H1 H2 BK. destruct avlog_start as (X0 & E0). assert (NE : ts <> []).
      { intros Q. pose proof (proj1 (proj1 (C26_empty (F:=F) b f ts d Hb clock fuel (AObj AverageLog p (IConv (F:=F) L_INF thr lim n cur) lg)) Q)) as Q1. rewrite Q1 in H. discriminate. }
      exact (engine_fails L b f ts d Hb NE AverageLog p X0 x (err 5) j (or_intror eq_refl) E0 (avlog_acc X0 j NE E0 BK) (err_mono 5) (fun i => err_big 5 i one_five) thr T lim Ht clock fuel n cur lg H j (conj H1 (le_n j)) H2).
    Qed.

    Theorem C108_average_log_terminates : ts <> [] -> 0 < T -> exists N, (1 <= N)%nat /\ moves_less ts x N (T / 2) /\
      (in_bounds 5 (NS * NC * NC) N -> margin 5 N <= T / 2 -> (Z.of_nat N <= lim)%Z -> forall clock fuel n cur lg, (N < fuel)%nat ->
       exists r o' k, run (F:=F) clock fuel (AObj AverageLog p (IConv (F:=F) L_INF thr lim n cur) lg) d = (Ok r, o') /\ r_iterations r = Some k /\ (k <= N)%nat).
    Proof.
      intros NE PT. destruct (exact_still AverageLog p ((fun _ => 0), x0) NE (or_intror (conj eq_refl Two)) ltac:(cbn [start]; rewrite Ep; reflexivity) (T / 2) ltac:(lra)) as (N & HN & M). exists N. split; [exact HN|]. split; [exact M|].
      intros B Mg Hl clock fuel n cur lg Hf. apply (C108_average_log_returns N clock fuel n cur lg NE HN Hl Hf B). intros s Hs. specialize (M s Hs). cbn beta in M |- *. change (rounds (step_of None ts AverageLog)) with (rounds (avlog_step ts)) in M. lra.
    Qed.
  End AvLog.
End C108.

(** ** The hypotheses are met: three sources, of which 1 and 2 say x = 1 and 3 says x = 2. The trust of source 3 is halved in every round, so
    with a threshold of about 1/10 Sums stops after exactly 5 rounds, in doubles as well. *)
Module Conv64Examples.
  Definition vs := AlgExamples.vs.
  Definition L : libm := AccuracyExamples.lm.
  Lemma builds : exists d : dataset nat nat nat (B64 L), build (F:=B64 L) false None vs = Ok d.
  Proof.
    destruct (build_strict (F:=B64 L) None vs) as [(_ & _ & d & E & _)|[(_ & N & _)|(s & x & H & _)]].
    - exists d. exact E.
    - exfalso. apply N. intros c c' q _ _ H. unfold imp_val in H. destruct (_ && _)%bool; discriminate.
    - exfalso. apply (first_repeat_not_NoDup _ _ _ H). unfold vs, AlgExamples.vs, sv_pairs; cbn. repeat constructor; cbn; intuition congruence.
  Qed.
  Notation x := (rounds (sums_step vs) ((fun _ => 0), (fun _ => 1 / 2))).
  Lemma rmax_is {A} (f : A -> R) l a : In a l -> (forall y, In y l -> f y <= f a) -> rmax f l = f a.
  Proof.
    intros Ha H. pose proof (rmax_ge f l a Ha). destruct (rmax_In f l) as (y & Hy & Ey); [destruct l; [contradiction|discriminate]|]. specialize (H y Hy). lra.
  Qed.
  Lemma srcs s : In s (sources vs) -> s = 1%nat \/ s = 2%nat \/ s = 3%nat.
  Proof. intros H. vm_compute in H. intuition. Qed.
  Lemma clms c : In c (claims vs) -> c = (0, 1)%nat \/ c = (0, 2)%nat.
  Proof. intros H. vm_compute in H. intuition. Qed.
  (** one round from beliefs u >= v > 0 *)
  Lemma step y u v : snd y (0, 1)%nat = u -> snd y (0, 2)%nat = v -> 0 < v <= u ->
    let z := sums_step vs y in fst z 1%nat = 1 /\ fst z 2%nat = 1 /\ fst z 3%nat = v / u /\ snd z (0, 1)%nat = 1 /\ snd z (0, 2)%nat = v / u / 2.
  Proof.
    intros Eu Ev Hv z. set (t := total_belief vs (snd y)).
    assert (K1 : claims_of vs 1%nat = [(0, 1)%nat]) by reflexivity. assert (K2 : claims_of vs 2%nat = [(0, 1)%nat]) by reflexivity. assert (K3 : claims_of vs 3%nat = [(0, 2)%nat]) by reflexivity.
    assert (S1 : supporters vs (0, 1)%nat = [1; 2]%nat) by reflexivity. assert (S2 : supporters vs (0, 2)%nat = [3]%nat) by reflexivity.
    assert (T1 : t 1%nat = u) by (unfold t, total_belief; rewrite K1; cbn [rsum fold_right map]; lra). assert (T2 : t 2%nat = u) by (unfold t, total_belief; rewrite K2; cbn [rsum fold_right map]; lra).
    assert (T3 : t 3%nat = v) by (unfold t, total_belief; rewrite K3; cbn [rsum fold_right map]; lra).
    assert (B1 : total_trust vs t (0, 1)%nat = 2 * u) by (unfold total_trust; rewrite S1; cbn [rsum fold_right map]; lra).
    assert (B2 : total_trust vs t (0, 2)%nat = v) by (unfold total_trust; rewrite S2; cbn [rsum fold_right map]; lra).
    assert (M1 : rmax t (sources vs) = u). { rewrite (rmax_is t (sources vs) 1%nat); [exact T1|vm_compute; auto|]. intros s Hs. destruct (srcs s Hs) as [->|[->| ->]]; rewrite ?T1, ?T2, ?T3; lra. }
    assert (M2 : rmax (total_trust vs t) (claims vs) = 2 * u). { rewrite (rmax_is _ (claims vs) (0, 1)%nat); [exact B1|vm_compute; auto|]. intros c Hc. destruct (clms c Hc) as [->| ->]; rewrite ?B1, ?B2; lra. }
    unfold z, sums_step. cbv zeta. fold t. cbn [fst snd]. unfold by_max. rewrite M1, M2, T1, T2, T3, B1, B2.
    repeat split; field; lra.
  Qed.
  Lemma exact_scores j : fst (x (Datatypes.S j)) 1%nat = 1 /\ fst (x (Datatypes.S j)) 2%nat = 1 /\ fst (x (Datatypes.S j)) 3%nat = / 2 ^ j /\
    snd (x (Datatypes.S j)) (0, 1)%nat = 1 /\ snd (x (Datatypes.S j)) (0, 2)%nat = / 2 ^ Datatypes.S j.
  Proof.
    induction j as [|j IH].
    - destruct (step (x 0%nat) (1 / 2) (1 / 2) eq_refl eq_refl ltac:(lra)) as (A & B & C & D & G). change (sums_step vs (x 0%nat)) with (x 1%nat) in *.
      rewrite A, B, C, D, G. repeat split; cbn [pow]; field.
    - destruct IH as (_ & _ & _ & D0 & G0). assert (P : 0 < / 2 ^ Datatypes.S j) by (apply Rinv_0_lt_compat, pow_lt; lra).
      assert (P1 : / 2 ^ Datatypes.S j <= 1) by (rewrite <- Rinv_1; apply Rinv_le; [lra|apply pow_R1_Rle; lra]).
      destruct (step (x (Datatypes.S j)) 1 (/ 2 ^ Datatypes.S j) D0 G0 (conj P P1)) as (A & B & C & D & G). change (sums_step vs (x (Datatypes.S j))) with (x (Datatypes.S (Datatypes.S j))) in *.
      rewrite A, B, C, D, G. repeat split; cbn [pow]; field; apply pow_nonzero; lra.
  Qed.
  Lemma movement j s : In s (sources vs) -> Rabs (fst (x (Datatypes.S (Datatypes.S j))) s - fst (x (Datatypes.S j)) s) <= / 2 ^ Datatypes.S j.
  Proof.
    intros Hs. destruct (exact_scores j) as (A & B & C & _). destruct (exact_scores (Datatypes.S j)) as (A' & B' & C' & _).
    assert (P : 0 < / 2 ^ Datatypes.S j) by (apply Rinv_0_lt_compat, pow_lt; lra).
    destruct (srcs s Hs) as [->|[->| ->]]; [rewrite A, A', Rminus_eq_0, Rabs_R0; lra|rewrite B, B', Rminus_eq_0, Rabs_R0; lra|].
    rewrite C, C'. assert (/ 2 ^ j = 2 * / 2 ^ Datatypes.S j) by (cbn [pow]; field; apply pow_nonzero; lra). apply Rabs_le. lra.
  Qed.
  Lemma movement3 j : Rabs (fst (x (Datatypes.S (Datatypes.S j))) 3%nat - fst (x (Datatypes.S j)) 3%nat) = / 2 ^ Datatypes.S j.
  Proof.
    destruct (exact_scores j) as (_ & _ & C & _). destruct (exact_scores (Datatypes.S j)) as (_ & _ & C' & _). rewrite C, C'.
    assert (P : 0 < / 2 ^ Datatypes.S j) by (apply Rinv_0_lt_compat, pow_lt; lra). assert (/ 2 ^ j = 2 * / 2 ^ Datatypes.S j) by (cbn [pow]; field; apply pow_nonzero; lra).
    rewrite Rabs_left; lra.
  Qed.
  Lemma bounds j : (j <= 5)%nat -> in_bounds vs 1 (length (sources vs) * length (claims vs)) j.
  Proof. intros H. do 6 (destruct j as [|j]; [vm_compute; split; discriminate|]). lia. Qed.
  Lemma small_margin j : (j <= 5)%nat -> 0 <= margin vs 1 j <= 1 / 1000.
  Proof.
    intros H. unfold margin. change (length (sources vs) + length (claims vs) + 1)%nat with 6%nat. assert (Q : 0 <= INR ((j + 1) * 6) <= 36) by (split; [apply pos_INR|]; replace 36 with (INR 36) by (cbn; lra); apply le_INR; nia).
    assert (P : 0 <= / 2 ^ 50 <= / 1000000) by lra. unfold Rdiv. nra.
  Qed.
  Theorem C108_example (thr : b64) T lim clock fuel n cur lg : isf thr T -> 7 / 100 <= T <= 12 / 100 -> (5 <= lim)%Z -> (5 < fuel)%nat ->
    forall d, build (F:=B64 L) false None vs = Ok d ->
    exists r o', run (F:=B64 L) clock fuel (AObj Sums FIXED (IConv (F:=B64 L) L_INF thr lim n cur) lg) d = (Ok r, o') /\ r_iterations r = Some 5%nat.
  Proof.
    intros Ht HT Hl Hf d Hb. destruct (C108_sums_returns L false None vs d Hb FIXED (fun _ => 1 / 2) eq_refl thr T lim Ht 5 clock fuel n cur lg) as (r & o' & k & E & Ek & Hk); try discriminate; try lia.
    - apply bounds. lia.
    - intros s Hs. pose proof (movement 3 s Hs). pose proof (small_margin 5 ltac:(lia)). cbn [Nat.sub]. cbn [pow] in *. lra.
    - exists r, o'. split; [exact E|]. rewrite Ek. f_equal.
      destruct (C108_sums_stops L false None vs d Hb FIXED (fun _ => 1 / 2) eq_refl thr T lim Ht clock fuel n cur lg r o' E) as (k' & Ek' & H1 & H2 & _). rewrite Ek in Ek'. injection Ek' as <-.
      specialize (H2 (bounds k Hk)). specialize (H2 3%nat ltac:(vm_compute; auto)). pose proof (small_margin k Hk) as Mk.
      destruct k as [|k]; [lia|]. replace (Datatypes.S k - 1)%nat with k in H2 by lia. destruct k as [|k].
      + exfalso. destruct (exact_scores 0) as (_ & _ & C & _). rewrite C in H2. change (fst (x 0%nat) 3%nat) with 0 in H2. rewrite Rminus_0_r, Rabs_pos_eq in H2; cbn [pow] in H2; lra.
      + rewrite movement3 in H2. do 3 (destruct k as [|k]; [exfalso; cbn [pow] in H2; lra|]). lia.
  Qed.
  Example threshold : exists (thr : b64) T, isf thr T /\ 7 / 100 <= T <= 12 / 100.
  Proof.
    exists (AccuracyExamples.of_R (1 / 8 - 1 / 32)), (rnd (1 / 8 - 1 / 32)). split; [apply AccuracyExamples.of_R_isf|].
    - apply Rle_lt_trans with (bpow radix2 0); [|apply bpow_lt; lia]. change (bpow radix2 0) with 1. apply Rabs_le. lra.
    - assert (G : generic_format radix2 fexp64 (1 / 8 - 1 / 32)).
      { replace (1 / 8 - 1 / 32) with (F2R (Float radix2 3 (-5))) by (unfold F2R; cbn; lra). apply generic_format_F2R. intros _. unfold cexp, SpecFloat.fexp, SpecFloat.emin.
        assert (M : (mag radix2 (F2R (Float radix2 3 (-5))) <= 0)%Z). { apply mag_le_bpow; [unfold F2R; cbn; lra|]. unfold F2R; cbn. rewrite Rabs_pos_eq; lra. } cbn [Fexp]. lia. }
      rewrite (rnd_id _ G). lra.
  Qed.
  (** AverageLog: the hypotheses of the section hold of the data and of the correctly rounded logarithm of PropsAccuracy *)
  Example average_log_case : exists d x0, build (F:=B64 L) false None AccuracyExamples.ts = Ok d /\ prior_spec AccuracyExamples.ts VOTED = Some x0 /\ someone_claims_two AccuracyExamples.ts /\
    exists N, (1 <= N)%nat /\ moves_less AccuracyExamples.ts (rounds (avlog_step AccuracyExamples.ts) ((fun _ => 0), x0)) N (1 / 2048) /\
     (in_bounds AccuracyExamples.ts 5 (length (sources AccuracyExamples.ts) * length (claims AccuracyExamples.ts) * length (claims AccuracyExamples.ts)) N -> margin AccuracyExamples.ts 5 N <= 1 / 2048 ->
      (Z.of_nat N <= 200)%Z -> forall thr, isf thr (1 / 1024) -> forall clock fuel, (N < fuel)%nat ->
      exists r o' k, run (F:=B64 L) clock fuel (AObj AverageLog VOTED (IConv (F:=B64 L) L_INF thr 200 0 None) None) d = (Ok r, o') /\ r_iterations r = Some k /\ (k <= N)%nat).
  Proof.
    destruct AccuracyExamples.builds as (d & E). exists d. eexists. split; [exact E|]. split; [reflexivity|].
    assert (Two : someone_claims_two AccuracyExamples.ts) by (exists 1%nat; split; [vm_compute; auto|vm_compute; lia]). split; [exact Two|].
    assert (Hl : forall m, (1 <= m <= length (claims AccuracyExamples.ts))%nat -> accurate (/ 2 ^ 52) (ln (INR m)) (lm_ln L (ofZ64 (Z.of_nat m)))).
    { intros m (M1 & M2). apply AccuracyExamples.lm_log; [exact M1|]. change (length (claims AccuracyExamples.ts)) with 6%nat in M2. lia. }
    destruct (exact_still AccuracyExamples.ts AverageLog VOTED _ ltac:(discriminate) (or_intror (conj eq_refl Two)) eq_refl (1 / 2048) ltac:(lra)) as (N & HN & M).
    exists N. split; [exact HN|]. split; [exact M|]. intros B Mg Hlim thr Ht clock fuel Hf.
    apply (C108_average_log_returns L false None AccuracyExamples.ts d E VOTED _ eq_refl Two Hl thr (1 / 1024) 200 Ht N clock fuel 0 None None ltac:(discriminate) HN Hlim Hf B).
    intros s Hs. specialize (M s Hs). cbn beta in M |- *. change (rounds (step_of None AccuracyExamples.ts AverageLog)) with (rounds (avlog_step AccuracyExamples.ts)) in M. lra.
  Qed.
End Conv64Examples.
