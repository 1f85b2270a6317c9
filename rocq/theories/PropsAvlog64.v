(** C93: AverageLog in IEEE double arithmetic, exactly as computed, rounding errors included, for any number of rounds. *)
From Coq Require Import Reals Lra.
From Flocq Require Import Core IEEE754.BinarySingleNaN.
From Verif Require Import Base Num Sparse Spec SpecAlg Dataset DatasetProofs DatasetRep Iterators Algorithms Driver Rounds
  AlgRep PropsData PropsIter PropsRun PropsAlg Float PropsFloat PropsVote64 PropsTF64 PropsAccuracy.
Local Open Scope R_scope.

(** What is assumed of the C library's logarithm: log(1) is zero, and the logarithms of the whole numbers from 2 to 2^53 are
    between 1/2 and 64 (they are between 0.69 and 36.8). *)
Definition plausible_log (L : libm) : Prop :=
  double_in 0 0 (lm_ln L (ofZ64 1)) /\ forall n, (2 <= n <= 2 ^ 53)%Z -> double_in (1 / 2) 64 (lm_ln L (ofZ64 n)).

(** ** arithmetic with powers of two as bounds *)
Lemma rnd_low e x : (-1074 <= e)%Z -> bpow radix2 e <= x -> bpow radix2 e <= rnd x.
Proof. intros He H. apply rnd_ge_fmt; [now apply fmt_bpow|exact H]. Qed.
Lemma rnd_up e x : (-1074 <= e)%Z -> x <= bpow radix2 e -> rnd x <= bpow radix2 e.
Proof. intros He H. apply rnd_le_fmt; [now apply fmt_bpow|exact H]. Qed.
Lemma mul_up64 x y a b h1 h2 : isf x a -> isf y b -> 0 <= a <= bpow radix2 h1 -> 0 <= b <= bpow radix2 h2 -> (-1074 <= h1 + h2 < 1024)%Z ->
  isf (Bmult mode_NE x y) (rnd (a * b)) /\ 0 <= rnd (a * b) <= bpow radix2 (h1 + h2).
Proof.
  intros Hx Hy Ha Hb He. assert (P : 0 <= a * b <= bpow radix2 (h1 + h2)) by (rewrite bpow_plus; split; [nra|apply Rmult_le_compat; lra]).
  split; [apply (mul64 _ _ a b (bpow radix2 (h1 + h2))); auto; try tauto; [apply fmt_bpow; lia|apply bpow_lt; lia]|].
  split; [apply (rnd_ge_fmt 0); [exact fmt_0|tauto]|apply rnd_up; [lia|tauto]].
Qed.
Lemma mul_low a b l1 l2 : bpow radix2 l1 <= a -> bpow radix2 l2 <= b -> (-1074 <= l1 + l2)%Z -> bpow radix2 (l1 + l2) <= rnd (a * b).
Proof.
  intros Ha Hb He. apply rnd_low; [exact He|]. rewrite bpow_plus. pose proof (bpow_gt_0 radix2 l1). pose proof (bpow_gt_0 radix2 l2). apply Rmult_le_compat; lra.
Qed.
Lemma div_up64 x y a b h l : isf x a -> isf y b -> 0 <= a <= bpow radix2 h -> bpow radix2 l <= b -> (-1074 <= h - l < 1024)%Z ->
  isf (Bdiv mode_NE x y) (rnd (a / b)) /\ 0 <= rnd (a / b) <= bpow radix2 (h - l).
Proof.
  intros Hx Hy Ha Hb He. pose proof (bpow_gt_0 radix2 l) as Pl.
  assert (P : 0 <= a / b <= bpow radix2 (h - l)).
  { unfold Rdiv. assert (0 < / b) by (apply Rinv_0_lt_compat; lra). split; [nra|]. unfold Z.sub. rewrite bpow_plus, bpow_opp. apply Rmult_le_compat; try lra. apply Rinv_le; lra. }
  split; [apply (div64 _ _ a b (bpow radix2 (h - l))); auto; try tauto; [lra|apply fmt_bpow; lia|apply bpow_lt; lia]|].
  split; [apply (rnd_ge_fmt 0); [exact fmt_0|tauto]|apply rnd_up; [lia|tauto]].
Qed.
Lemma div_low a b l h : bpow radix2 l <= a -> 0 < b <= bpow radix2 h -> (-1074 <= l - h)%Z -> bpow radix2 (l - h) <= rnd (a / b).
Proof.
  intros Ha Hb He. apply rnd_low; [exact He|]. pose proof (bpow_gt_0 radix2 l). pose proof (bpow_gt_0 radix2 h). unfold Z.sub, Rdiv. rewrite bpow_plus, bpow_opp.
  apply Rmult_le_compat; try lra; [left; apply Rinv_0_lt_compat; lra|apply Rinv_le; lra].
Qed.
(** zeros *)
Lemma isf_zero x : isf x 0 -> exists s, x = B754_zero s.
Proof.
  intros [Fx E]. destruct x as [s|s| |s m e Hb]; try discriminate; [eauto|]. exfalso. cbn in E. apply eq_0_F2R in E. destruct s; discriminate.
Qed.
Lemma zero_isf s : isf (B754_zero s) 0. Proof. split; reflexivity. Qed.
Lemma zero_div_not_one x m : isf x 0 -> Bdiv mode_NE x m <> ofZ64 1.
Proof. intros H E. apply isf_zero in H. destruct H as (s & ->). pose proof one64 as [_ G]. rewrite <- E in G. destruct m as [s'|s'| |s' m' e' Hb]; cbn in G; lra. Qed.
Lemma zero_sum l a : isf a 0 -> (forall x, In x l -> isf x 0) -> isf (fold_left (Bplus mode_NE) l a) 0.
Proof.
  revert a. induction l as [|x l IH]; intros a Ha Hl; [exact Ha|]. cbn [fold_left]. apply IH; [|intros y Hy; apply Hl; now right].
  destruct (isf_zero a Ha) as (s & ->). destruct (isf_zero x (Hl x (or_introl eq_refl))) as (s' & ->). destruct s, s'; apply zero_isf.
Qed.
Lemma zero_by_zero x y : isf x 0 -> isf y 0 -> Bdiv mode_NE x y = nan64.
Proof. intros Hx Hy. destruct (isf_zero x Hx) as (s & ->). destruct (isf_zero y Hy) as (s' & ->). reflexivity. Qed.

Lemma few_of {A} (p : A -> bool) l : (Z.of_nat (length l) <= 2 ^ 53)%Z -> (Z.of_nat (length (filter p l)) <= 2 ^ 53)%Z.
Proof. intros H. assert ((length (filter p l) <= length l)%nat) by (induction l; cbn in *; [lia|destruct (p a); cbn; lia]). lia. Qed.

(** rows of a product with a 0/1 matrix, and division by the largest entry, as in PropsFloat *)
Lemma rowsum64 {A} (e : Z) (g : A -> b64) (l : list A) : (-1074 <= e <= 800)%Z -> (Z.of_nat (length l) <= 2 ^ 53)%Z ->
  (forall x, In x l -> within 0 (bpow radix2 e) (g x)) ->
  exists r, isf (fold_left (Bplus mode_NE) (map (fun x => Bmult mode_NE (ofZ64 1) (g x)) l) (ofZ64 0)) r /\
    0 <= r <= INR (length l) * bpow radix2 e /\ (forall x q, In x l -> isf (g x) q -> q <= r).
Proof.
  intros He Hl Hg.
  destruct (sum64 e (map (fun x => Bmult mode_NE (ofZ64 1) (g x)) l) 0 (ofZ64 0) 0) as (r & H1 & H2 & H3).
  - lia.
  - rewrite map_length. exact Hl.
  - exact zero64.
  - cbn. lra.
  - intros y Hy. apply in_map_iff in Hy. destruct Hy as (x & <- & Hx). destruct (Hg x Hx) as (q & Hq & Hq'). exists q. split; [|exact Hq'].
    apply one_mul64; [exact Hq|lra].
  - exists r. rewrite map_length in H2. split; [exact H1|]. split; [exact H2|]. intros x q Hx Hq.
    destruct (Hg x Hx) as (q' & Hq' & Hq2). assert (q = q') by (eapply isf_fun; eauto). subst q'. apply (H3 (Bmult mode_NE (ofZ64 1) (g x))).
    + apply in_map_iff. eauto.
    + apply one_mul64; [exact Hq|lra].
Qed.

Lemma INR_few (n : nat) e : (Z.of_nat n <= 2 ^ 53)%Z -> INR n * bpow radix2 e <= bpow radix2 (e + 53).
Proof.
  intros H. rewrite Z.add_comm, bpow_plus. apply Rmult_le_compat_r; [apply bpow_ge_0|]. rewrite INR_IZR_INZ. apply (IZR_le _ (2 ^ 53)). exact H.
Qed.


Lemma by_max64 {A} L (g : A -> b64) (l : list A) hi : l <> [] -> (forall x, In x l -> within 0 hi (g x)) -> (exists x q, In x l /\ isf (g x) q /\ 0 < q) ->
  exists m, pymax (F:=B64 L) (map g l) = Some m /\ npmax (F:=B64 L) (map g l) = Some m /\
    (forall x, In x l -> within 0 1 (Bdiv mode_NE (g x) m)) /\ (exists x, In x l /\ Bdiv mode_NE (g x) m = ofZ64 1).
Proof.
  intros Hl Hg (x0 & q0 & Hx0 & Hq0 & Hp0).
  assert (Fn : forall y, In y (map g l) -> exists q, isf y q).
  { intros y Hy. apply in_map_iff in Hy. destruct Hy as (x & <- & Hx). destruct (Hg x Hx) as (q & Hq & _). eauto. }
  destruct (pymax64 L (map g l)) as (m & q & E & Hm & Hin & Hall); [destruct l; cbn; congruence|exact Fn|].
  assert (Pq : 0 < q) by (pose proof (Hall (g x0) q0 (in_map g l x0 Hx0) Hq0); lra).
  exists m. split; [exact E|]. split; [rewrite (npmax64 L _ Fn); exact E|]. split.
  - intros x Hx. destruct (Hg x Hx) as (r & Hr & Hr'). pose proof (Hall (g x) r (in_map g l x Hx) Hr).
    destruct (div_max64 (g x) m r q Hr Hm ltac:(lra) Pq) as (z & Hz & Hz' & _). exists z. auto.
  - apply in_map_iff in Hin. destruct Hin as (x & Ex & Hx). exists x. split; [exact Hx|]. rewrite Ex.
    destruct (div_max64 m m q q Hm Hm ltac:(lra) Pq) as (z & Hz & Hz' & H1). rewrite (H1 eq_refl) in Hz.
    apply (isf_pos_inj _ _ 1); [exact Hz|exact one64|lra].
Qed.


Section C93.
  Context {S V W : Type} {ES : Eqb S} {EV : Eqb V} {EW : Eqb W}.
  Variable L : libm.
  Hypothesis Log : plausible_log L.
  Notation F := (B64 L).
  Notation data := (dataset S V W F).
  Notation claim := (V * W)%type.
  Notation result := (result S V W b64).
  Notation cap := (2 ^ 53)%Z.
  Variables (b : bool) (f : option (V -> W -> W -> option F)) (ts : list (S * V * W)) (d : data).
  Hypothesis Hb : build (F:=F) b f ts = Ok d.
  Hypothesis Small_s : (Z.of_nat (length (sources ts)) <= cap)%Z.
  Hypothesis Small_c : (Z.of_nat (length (claims ts)) <= cap)%Z.
  Let R0 : ds_rep (F:=F) ts f d := build_rep _ _ _ _ Hb.
  Notation cnt := (tb64 ts (fun _ => ofZ64 1)).
  (** the weight of a source, and its new trust before normalisation *)
  Definition w64 (s : S) : b64 := Bdiv mode_NE (lm_ln L (cnt s)) (cnt s).
  Definition nt64 (g : claim -> b64) (s : S) : b64 := Bmult mode_NE (w64 s) (tb64 ts g s).
  Lemma claims_pos s : In s (sources ts) -> (1 <= length (claims_of ts s))%nat.
  Proof. intros Hs. destruct (claims_of_ne ts s Hs) as (c & Hc). destruct (claims_of ts s); [destruct Hc|cbn; lia]. Qed.
  Lemma cnt_eq s : In s (sources ts) -> cnt s = ofZ64 (Z.of_nat (length (claims_of ts s))).
  Proof.
    intros Hs. pose proof (claims_pos s Hs) as P. assert (Q : (Z.of_nat (length (claims_of ts s)) <= cap)%Z) by now apply few_of.
    assert (A : isf (cnt s) (INR (length (claims_of ts s)))) by (apply (count_exact (claims_of ts s) 0); [exact Q|exact zero64]).
    apply (isf_pos_inj _ _ (INR (length (claims_of ts s)))); [exact A| |apply not_0_INR; lia]. rewrite INR_IZR_INZ. apply ofZ64_isf. lia.
  Qed.
  Lemma w64_one s : In s (sources ts) -> length (claims_of ts s) = 1%nat -> isf (w64 s) 0.
  Proof.
    intros Hs E. unfold w64. rewrite (cnt_eq s Hs), E. change (Z.of_nat 1) with 1%Z. destruct Log as [[F1 [L1 L2]] _].
    assert (H : isf (lm_ln L (ofZ64 1)) 0) by (split; [exact F1|lra]). destruct (isf_zero _ H) as (sg & ->). destruct sg; apply B2R_Bsign_inj || (split; vm_compute; reflexivity).
  Qed.
  Lemma w64_two s : In s (sources ts) -> (2 <= length (claims_of ts s))%nat -> within (bpow radix2 (-54)) (bpow radix2 6) (w64 s).
  Proof.
    intros Hs E. unfold w64. rewrite (cnt_eq s Hs). set (n := Z.of_nat (length (claims_of ts s))).
    assert (N : (2 <= n <= cap)%Z) by (split; [unfold n; lia|now apply few_of]).
    destruct (proj2 Log n N) as [F1 [L1 L2]]. assert (Il : isf (lm_ln L (ofZ64 n)) (B2R64 (lm_ln L (ofZ64 n)))) by now split.
    assert (In' : isf (ofZ64 n) (IZR n)) by (apply ofZ64_isf; lia).
    assert (N1 : bpow radix2 0 <= IZR n) by (change (bpow radix2 0) with (IZR 1); apply IZR_le; lia).
    assert (N2 : IZR n <= bpow radix2 53) by (apply (IZR_le n cap); lia).
    destruct (div_up64 _ _ _ _ 6 0 Il In') as (H1 & H2); [change (bpow radix2 6) with 64; lra|exact N1|lia|].
    exists (rnd (B2R64 (lm_ln L (ofZ64 n)) / IZR n)). split; [exact H1|]. split; [|apply H2].
    apply (div_low _ _ (-1) 53); [change (bpow radix2 (-1)) with (/ 2); lra| |lia]. change (bpow radix2 0) with 1 in N1. lra.
  Qed.
  (** beliefs a round may start with: between 0 and 2^53, and some claim of a source with several claims has a belief that is not tiny *)
  Definition ready2 (g : claim -> b64) : Prop :=
    (forall c, In c (claims ts) -> within 0 (bpow radix2 53) (g c)) /\
    (exists s c q, says ts s c = true /\ (2 <= length (claims_of ts s))%nat /\ isf (g c) q /\ bpow radix2 (-120) <= q).
  Lemma avlog_weights64 : avlog_weights d = map w64 (sources ts).
  Proof.
    unfold avlog_weights, claim_counts. rewrite (rep_nc _ _ _ R0), (ones64 L), (sc64 L b f ts d Hb). unfold vdiv. rewrite map_map. apply (zipw_map2 (@n_div F)).
  Qed.
  Lemma avlog_nt64 g : vmul (avlog_weights d) (mv (F:=F) (sc d) (map g (claims ts))) = map (nt64 g) (sources ts).
  Proof. rewrite avlog_weights64, (sc64 L b f ts d Hb). unfold vmul. apply (zipw_map2 (@n_mul F)). Qed.
  Lemma avlog_round64 (t0 : vec F) g : ready2 g ->
    exists t g', normalised ts t g' /\ ready2 g' /\ round (F:=F) AverageLog d (t0, map g (claims ts)) = UNext (F:=F) (map t (sources ts)) t0 (map t (sources ts), map g' (claims ts)).
  Proof.
    intros [Hg (s0 & c0 & q0 & Hs0 & H2 & Hq0 & Pq0)].
    assert (NE : ts <> []) by (intros E; rewrite E in H2; cbn in H2; lia).
    assert (Sup : forall c s, In s (supporters ts c) -> In s (sources ts)) by (intros c s Hs; unfold supporters in Hs; apply filter_In in Hs; tauto).
    assert (B1 : forall s, In s (sources ts) -> exists r, isf (tb64 ts g s) r /\ 0 <= r <= bpow radix2 106 /\ (forall c q, In c (claims_of ts s) -> isf (g c) q -> q <= r)).
    { intros s Hs. destruct (rowsum64 53 g (claims_of ts s)) as (r & H1 & H2' & H3); [lia|now apply few_of|intros c Hc; apply Hg; unfold claims_of in Hc; apply filter_In in Hc; tauto|].
      exists r. split; [exact H1|]. split; [|exact H3]. split; [lra|]. eapply Rle_trans; [apply H2'|]. apply (INR_few _ 53). now apply few_of. }
    assert (B2 : forall s, In s (sources ts) -> exists r, isf (nt64 g s) r /\ 0 <= r <= bpow radix2 112 /\ ((length (claims_of ts s) < 2)%nat -> r = 0) /\
                   ((2 <= length (claims_of ts s))%nat -> forall q, isf (tb64 ts g s) q -> bpow radix2 (-120) <= q -> bpow radix2 (-174) <= r)).
    { intros s Hs. destruct (B1 s Hs) as (r & Hr & Hr' & _). unfold nt64. destruct (le_lt_dec 2 (length (claims_of ts s))) as [G|G].
      - destruct (w64_two s Hs G) as (w & Hw & Hw'). pose proof (bpow_gt_0 radix2 (-54)).
        destruct (mul_up64 _ _ w r 6 106 Hw Hr) as (M1 & M2); [lra|exact Hr'|lia|]. exists (rnd (w * r)). split; [exact M1|]. split; [exact M2|]. split; [lia|].
        intros _ q Hq Hq'. rewrite (isf_fun _ _ _ Hq Hr) in Hq'. apply (mul_low w r (-54) (-120)); [tauto|exact Hq'|lia].
      - pose proof (w64_one s Hs ltac:(pose proof (claims_pos s Hs); lia)) as Hw.
        destruct (mul_up64 _ _ 0 r 6 106 Hw Hr) as (M1 & M2); [pose proof (bpow_gt_0 radix2 6); lra|exact Hr'|lia|]. exists (rnd (0 * r)). split; [exact M1|]. split; [exact M2|]. split; [|lia].
        intros _. rewrite Rmult_0_l. apply rnd_id, fmt_0. }
    assert (B3 : forall c, In c (claims ts) -> exists r, isf (tt64 ts (nt64 g) c) r /\ 0 <= r <= bpow radix2 165 /\ (forall s q, In s (supporters ts c) -> isf (nt64 g s) q -> q <= r)).
    { intros c Hc. destruct (rowsum64 112 (nt64 g) (supporters ts c)) as (r & H1 & H2' & H3); [lia|now apply few_of| |].
      - intros s Hs. destruct (B2 s (Sup c s Hs)) as (r & Hr & Hr' & _). exists r. auto.
      - exists r. split; [exact H1|]. split; [|exact H3]. split; [lra|]. eapply Rle_trans; [apply H2'|]. apply (INR_few _ 112). now apply few_of. }
    pose proof (says_source _ _ _ Hs0) as Hs0'. assert (Hc0 : In c0 (claims ts)) by (apply claims_In; eauto).
    destruct (B1 s0 Hs0') as (r0 & Hr0 & _ & Hmax0).
    assert (P0 : bpow radix2 (-120) <= r0).
    { assert (A : In c0 (claims_of ts s0)) by (unfold claims_of; apply filter_In; auto). pose proof (Hmax0 c0 q0 A Hq0). lra. }
    destruct (B2 s0 Hs0') as (r1 & Hr1 & _ & _ & Low). specialize (Low H2 r0 Hr0 P0). pose proof (bpow_gt_0 radix2 (-174)) as Pp.
    destruct (B3 c0 Hc0) as (r2 & Hr2 & _ & Hmax2).
    assert (P2 : 0 < r2).
    { assert (A : In s0 (supporters ts c0)) by (unfold supporters; apply filter_In; auto). pose proof (Hmax2 s0 r1 A Hr1). lra. }
    destruct (by_max64 L (nt64 g) (sources ts) (bpow radix2 112)) as (m & Em & _ & Hm1 & Hm2).
    { exact (src_ne ts NE). } { intros s Hs. destruct (B2 s Hs) as (r & Hr & Hr' & _). exists r. auto. } { exists s0, r1. repeat split; auto; try apply Hr1. lra. }
    destruct (by_max64 L (tt64 ts (nt64 g)) (claims ts) (bpow radix2 165)) as (m' & Em' & _ & Hm1' & Hm2').
    { exact (cl_ne ts NE). } { intros c Hc. destruct (B3 c Hc) as (r & Hr & Hr' & _). exists r. auto. } { exists c0, r2. repeat split; auto; apply Hr2. }
    exists (fun s => Bdiv mode_NE (nt64 g s) m), (fun c => Bdiv mode_NE (tt64 ts (nt64 g) c) m').
    assert (Nrm : normalised ts (fun s => Bdiv mode_NE (nt64 g s) m) (fun c => Bdiv mode_NE (tt64 ts (nt64 g) c) m')) by (repeat split; assumption).
    split; [exact Nrm|]. split; [split|].
    - exact (proj1 (normalised_ready ts _ _ Nrm)).
    - destruct Hm2' as (c & Hc & Ec).
      destruct (existsb (fun s => Nat.leb 2 (length (claims_of ts s))) (supporters ts c)) eqn:Ex.
      + apply existsb_exists in Ex. destruct Ex as (s & Hs & Hl). apply Nat.leb_le in Hl. exists s, c, 1.
        split; [unfold supporters in Hs; apply filter_In in Hs; tauto|]. split; [exact Hl|]. rewrite Ec. split; [exact one64|].
        change 1 with (bpow radix2 0). apply bpow_le. lia.
      + exfalso. apply (zero_div_not_one (tt64 ts (nt64 g) c) m'); [|exact Ec]. unfold tt64. apply zero_sum; [exact zero64|]. intros y Hy. apply in_map_iff in Hy. destruct Hy as (s & <- & Hs).
        assert (Hl : (length (claims_of ts s) < 2)%nat).
        { destruct (le_lt_dec 2 (length (claims_of ts s))) as [G|G]; [|exact G]. exfalso. assert (T : existsb (fun s => Nat.leb 2 (length (claims_of ts s))) (supporters ts c) = true) by (apply existsb_exists; exists s; split; [exact Hs|now apply Nat.leb_le]). congruence. }
        destruct (B2 s (Sup c s Hs)) as (r & Hr & _ & Hz & _). rewrite (Hz Hl) in Hr. apply one_mul64; [exact Hr|lra].
    - cbn [round]. unfold avlog_upd. rewrite avlog_nt64, (scT64 L b f ts d Hb), Em, Em'. unfold vdivs. rewrite !map_map. reflexivity.
  Qed.
  (** ** priors *)
  Definition ones_of (c : claim) : b64 := tt64 ts (fun _ => ofZ64 1) c.
  Lemma ones_range c : In c (claims ts) -> exists r, isf (ones_of c) r /\ 1 <= r <= bpow radix2 53.
  Proof.
    intros Hc. destruct (supporters_ne ts c Hc) as [s Hs]. assert (Q : (Z.of_nat (length (supporters ts c)) <= cap)%Z) by now apply few_of.
    exists (INR (length (supporters ts c))). split; [apply (count_exact (supporters ts c) 0); [exact Q|exact zero64]|]. split.
    - apply (le_INR 1). destruct (supporters ts c); [destruct Hs|cbn; lia].
    - rewrite INR_IZR_INZ. apply (IZR_le _ cap). exact Q.
  Qed.
  Lemma prior_low p bel : prior_beliefs (F:=F) p d = Some bel ->
    exists g, bel = map g (claims ts) /\ forall c, In c (claims ts) -> within (bpow radix2 (-120)) (bpow radix2 53) (g c).
  Proof.
    assert (Sc : source_counts (F:=F) d = map ones_of (claims ts)).
    { unfold source_counts. rewrite (rep_ns _ _ _ R0), (ones64 L). apply (scT64 L b f ts d Hb). }
    assert (RivC : forall c c', In c' (rivals ts c) -> In c' (claims ts)) by (intros c c' Hc; unfold rivals in Hc; apply filter_In in Hc; tauto).
    assert (Fr : forall c, (Z.of_nat (length (rivals ts c)) <= cap)%Z) by (intros; now apply few_of).
    assert (Lo : forall e, (-120 <= e)%Z -> bpow radix2 (-120) <= bpow radix2 e) by (intros; apply bpow_le; lia).
    destruct p; cbn [prior_beliefs]; intros [= <-].
    - exists (fun _ => @lit F 1 2). split; [unfold vfull; rewrite (rep_nc _ _ _ R0); apply (repeat_map (@lit F 1 2))|].
      intros c _. assert (H2 : isf (ofZ64 2) 2) by (apply (ofZ64_isf 2); lia). change (@lit F 1 2) with (Bdiv mode_NE (ofZ64 1) (ofZ64 2)).
      destruct (div_up64 _ _ 1 2 0 1 one64 H2) as (A & B); [change (bpow radix2 0) with 1; lra|change (bpow radix2 1) with 2; lra|lia|].
      exists (rnd (1 / 2)). split; [exact A|]. split; [|eapply Rle_trans; [apply B|apply bpow_le; lia]].
      eapply Rle_trans; [apply (Lo (0 - 1)%Z); lia|]. apply (div_low 1 2 0 1); [change (bpow radix2 0) with 1; lra|change (bpow radix2 1) with 2; lra|lia].
    - rewrite Sc, (mut64 L b f ts d Hb). exists (fun c => Bdiv mode_NE (ones_of c) (tr64 ts ones_of c)).
      split; [unfold vdiv; apply (zipw_map2 (@n_div F))|]. intros c Hc. destruct (ones_range c Hc) as (r & Hr & Hr').
      destruct (rowsum64 53 ones_of (rivals ts c)) as (r2 & H1 & H2 & H3); [lia|apply Fr| |].
      { intros c' Hc'. destruct (ones_range c' (RivC c c' Hc')) as (r' & G & G'). exists r'. split; [exact G|lra]. }
      pose proof (H3 c r (rivals_self ts c Hc) Hr) as G. assert (G2 : r2 <= bpow radix2 106) by (eapply Rle_trans; [apply H2|apply (INR_few _ 53), Fr]).
      change (tr64 ts ones_of c) with (fold_left (Bplus mode_NE) (map (fun x => Bmult mode_NE (ofZ64 1) (ones_of x)) (rivals ts c)) (ofZ64 0)).
      destruct (div_up64 _ _ r r2 53 0 Hr H1) as (A & B); [lra|change (bpow radix2 0) with 1; lra|lia|].
      exists (rnd (r / r2)). split; [exact A|]. split; [|apply B].
      eapply Rle_trans; [apply (Lo (0 - 106)%Z); lia|]. apply (div_low r r2 0 106); [change (bpow radix2 0) with 1; lra|lra|lia].
    - rewrite Sc. exists ones_of. split; [reflexivity|]. intros c Hc. destruct (ones_range c Hc) as (r & Hr & Hr'). exists r. split; [exact Hr|]. split; [|tauto].
      apply Rle_trans with 1; [change 1 with (bpow radix2 0); apply Lo; lia|tauto].
    - rewrite (rep_nc _ _ _ R0), (ones64 L), (mut64 L b f ts d Hb). exists (fun c => Bdiv mode_NE (ofZ64 1) (tr64 ts (fun _ => ofZ64 1) c)).
      split; [unfold sdivv; rewrite map_map; reflexivity|]. intros c Hc.
      assert (H1 : isf (tr64 ts (fun _ => ofZ64 1) c) (INR (length (rivals ts c)))) by (apply (count_exact (rivals ts c) 0); [apply Fr|exact zero64]).
      assert (N1 : bpow radix2 0 <= INR (length (rivals ts c))).
      { apply (le_INR 1). pose proof (rivals_self ts c Hc) as G. destruct (rivals ts c); [destruct G|cbn; lia]. }
      assert (N2 : INR (length (rivals ts c)) <= bpow radix2 53) by (rewrite INR_IZR_INZ; apply (IZR_le _ cap), Fr).
      destruct (div_up64 _ _ 1 _ 0 0 one64 H1) as (A & B); [change (bpow radix2 0) with 1; lra|exact N1|lia|].
      eexists. split; [exact A|]. split; [|eapply Rle_trans; [apply B|apply bpow_le; lia]].
      eapply Rle_trans; [apply (Lo (0 - 53)%Z); lia|]. apply (div_low 1 _ 0 53); [change (bpow radix2 0) with 1; lra| |lia]. change (bpow radix2 0) with 1 in N1. lra.
  Qed.

  Lemma avlog_scores64 p x0 : (exists s, (2 <= length (claims_of ts s))%nat) -> init (F:=F) AverageLog p d = Some x0 -> forall k,
    exists t g, scores (F:=F) AverageLog d x0 k = (t, map g (claims ts)) /\ ready2 g /\
      (k <> 0%nat -> exists t', t = map t' (sources ts) /\ normalised ts t' g).
  Proof.
    intros (s & Hs) E0. cbn [init] in E0. destruct (prior_beliefs p d) as [bel|] eqn:Ep; [|discriminate]. cbn in E0. injection E0 as E0'.
    destruct (prior_low p bel Ep) as (g0 & Eg & Hg0). subst bel. induction k as [|k (t & g & E & Hg & _)].
    - exists (vzeros (F:=F) (num_sources d)), g0. cbn [scores]. split; [symmetry; exact E0'|]. split; [|congruence]. split.
      + intros c Hc. destruct (Hg0 c Hc) as (r & Hr & Hr'). exists r. split; [exact Hr|]. pose proof (bpow_gt_0 radix2 (-120)). lra.
      + assert (Hc : exists c, In c (claims_of ts s)) by (destruct (claims_of ts s) as [|c l]; [cbn in Hs; lia|exists c; now left]).
        destruct Hc as (c & Hc). unfold claims_of in Hc. apply filter_In in Hc. destruct (Hg0 c (proj1 Hc)) as (r & Hr & Hr'). exists s, c, r. tauto.
    - destruct (avlog_round64 t g Hg) as (t' & g' & Hn & Hrd & Er).
      assert (Er2 : round AverageLog d (scores AverageLog d x0 k) = UNext (F:=F) (map t' (sources ts)) t (map t' (sources ts), map g' (claims ts))) by (rewrite E; exact Er).
      cbn [scores]. rewrite Er2. exists (map t' (sources ts)), g'. split; [reflexivity|]. split; [exact Hrd|]. intros _. exists t'. auto.
  Qed.

  (** if some source makes two claims then, after any number of rounds (at least one), all scores are numbers in [0,1] and the largest
      trust and the largest belief are exactly 1.0 *)
  Theorem C93_avlog_float clock fuel p it lg r o' k : (exists s, (2 <= length (claims_of ts s))%nat) ->
    run (F:=F) clock fuel (AObj AverageLog p it lg) d = (Ok r, o') -> r_iterations r = Some k -> k <> 0%nat -> scores_normal r.
  Proof.
    intros Two H Hk Hk0. apply (run_cases b f ts d Hb) in H. destruct H as (NE & x0 & k' & it' & E0 & El & x & Ef & ->).
    cbn in Hk. injection Hk as ->. destruct (avlog_scores64 p x0 Two E0 k) as (t & g & E & _ & Hn). destruct (Hn Hk0) as (t' & -> & N).
    apply (final_ok AverageLog it' _ x) in Ef; [|discriminate]. rewrite E in Ef. subst x. cbn [fst snd].
    apply (normal_intro ts _ t' g); [|exact N]. apply (reports64 L); reflexivity.
  Qed.
  (** the partial results after the first (which shows the starting values) too *)
  Theorem C93_avlog_float_partial_results clock fuel p it lg l o' j r : (exists s, (2 <= length (claims_of ts s))%nat) ->
    run_iter (F:=F) clock fuel (AObj AverageLog p it lg) d = (Ok l, o') -> nth_error l j = Some r -> j <> 0%nat -> scores_normal r.
  Proof.
    intros Two H Hj Hj0. assert (NE : ts <> []) by (intros E; destruct Two as (s & Q); rewrite E in Q; cbn in Q; lia).
    rewrite (run_iter_char clock ts f d R0 NE) in H. destruct (init AverageLog p d) as [x0|] eqn:E0; [|discriminate].
    destruct (it_loop _ _ _ fuel (reset it) 0) as [[q k] it'] eqn:El. destruct q as [[]|e]; [|discriminate]. cbn [final] in H. injection H as <- _.
    unfold partial_results, initial_log in Hj. cbn [logs_initial app length] in Hj. destruct j as [|j]; [congruence|]. cbn [nth_error] in Hj.
    rewrite nth_error_map in Hj. destruct (nth_error (seq 1 k) j) as [i|] eqn:Ei; [|discriminate]. cbn in Hj. injection Hj as <-.
    assert (Hi : i <> 0%nat) by (apply nth_error_In, in_seq in Ei; lia).
    destruct (avlog_scores64 p x0 Two E0 i) as (t & g & E & _ & Hn). destruct (Hn Hi) as (t' & -> & N).
    apply (normal_intro ts _ t' g); [|exact N].
    apply (reports64 L); [exact (f_equal (fun y => tdict (F:=F) ts (fst y)) E)|exact (f_equal (fun y => bdict (F:=F) ts (snd y)) E)].
  Qed.
  (** with a fixed number n >= 1 of rounds the run returns *)
  Theorem C93_avlog_float_returns clock fuel p n st lg : (exists s, (2 <= length (claims_of ts s))%nat) -> p <> BadPrior -> (1 <= n)%Z -> (Z.to_nat n < fuel)%nat ->
    exists r, fst (run (F:=F) clock fuel (AObj AverageLog p (IFixed n st) lg) d) = Ok r /\ r_iterations r = Some (Z.to_nat n) /\ scores_normal r.
  Proof.
    intros Two Hp Hn Hf. assert (NE : ts <> []) by (intros E; destruct Two as (s & Q); rewrite E in Q; cbn in Q; lia).
    destruct (fixed_run L b f ts d Hb clock fuel AverageLog p n st lg NE (or_intror eq_refl) Hp Hf) as (r & o' & E & Ek).
    exists r. rewrite E. split; [reflexivity|]. split; [exact Ek|]. eapply C93_avlog_float; [exact Two|exact E|exact Ek|lia].
  Qed.

  (** ** no source makes two claims: NaN *)
  Lemma tb_finite g s : In s (sources ts) -> (forall c, In c (claims ts) -> within 0 (bpow radix2 53) (g c)) -> exists r, isf (tb64 ts g s) r /\ 0 <= r <= bpow radix2 106.
  Proof.
    intros Hs Hg. destruct (rowsum64 53 g (claims_of ts s)) as (r & H1 & H2' & H3); [lia|now apply few_of|intros c Hc; apply Hg; unfold claims_of in Hc; apply filter_In in Hc; tauto|].
    exists r. split; [exact H1|]. split; [lra|]. eapply Rle_trans; [apply H2'|]. apply (INR_few _ 53). now apply few_of.
  Qed.
  Notation nans l := (map (fun _ => nan64) l).
  Lemma pymax_zeros {A} (h : A -> b64) (l : list A) : l <> [] -> (forall x, In x l -> isf (h x) 0) -> exists m, pymax (F:=F) (map h l) = Some m /\ isf m 0.
  Proof.
    intros Hl Hh. destruct (pymax64 L (map h l)) as (m & q & E & Hm & Hin & _).
    - destruct l; [congruence|discriminate].
    - intros y Hy. apply in_map_iff in Hy. destruct Hy as (x & <- & Hx). eauto.
    - exists m. split; [exact E|]. apply in_map_iff in Hin. destruct Hin as (x & <- & Hx). auto.
  Qed.
  Lemma pymax_nans {A} (l : list A) : l <> [] -> pymax (F:=F) (nans l) = Some nan64.
  Proof.
    destruct l as [|x l]; [congruence|]. intros _. cbn [map pymax]. f_equal. induction l as [|y l IH]; [reflexivity|]. exact IH.
  Qed.
  Lemma ne_claims_of s : In s (sources ts) -> claims_of ts s <> [].
  Proof. intros Hs E. pose proof (claims_pos s Hs). rewrite E in H. cbn in H. lia. Qed.
  Lemma single_round64 (t0 : vec F) bel : (forall s, In s (sources ts) -> length (claims_of ts s) = 1%nat) -> ts <> [] ->
    (exists g, bel = map g (claims ts) /\ forall c, In c (claims ts) -> within 0 (bpow radix2 53) (g c)) \/ bel = nans (claims ts) ->
    round (F:=F) AverageLog d (t0, bel) = UNext (F:=F) (nans (sources ts)) t0 (nans (sources ts), nans (claims ts)).
  Proof.
    intros One NE [(g & -> & Hg)| ->]; cbn [round]; unfold avlog_upd.
    - rewrite avlog_nt64, (scT64 L b f ts d Hb).
      assert (Z1 : forall s, In s (sources ts) -> isf (nt64 g s) 0).
      { intros s Hs. destruct (tb_finite g s Hs Hg) as (r & Hr & Hr'). destruct (mul_up64 _ _ 0 r 6 106 (w64_one s Hs (One s Hs)) Hr) as (M1 & _); [pose proof (bpow_gt_0 radix2 6); lra|exact Hr'|lia|].
        rewrite Rmult_0_l, (rnd_id 0 fmt_0) in M1. exact M1. }
      assert (Z2 : forall c, In c (claims ts) -> isf (tt64 ts (nt64 g) c) 0).
      { intros c Hc. unfold tt64. apply zero_sum; [exact zero64|]. intros y Hy. apply in_map_iff in Hy. destruct Hy as (s & <- & Hs). apply one_mul64; [|lra]. apply Z1. unfold supporters in Hs. apply filter_In in Hs. tauto. }
      destruct (pymax_zeros (nt64 g) (sources ts) (src_ne ts NE) Z1) as (m & Em & Hm). destruct (pymax_zeros (tt64 ts (nt64 g)) (claims ts) (cl_ne ts NE) Z2) as (m' & Em' & Hm').
      rewrite Em, Em'. assert (E1 : vdivs (F:=F) (map (nt64 g) (sources ts)) m = nans (sources ts)).
      { unfold vdivs. rewrite map_map. apply map_ext_in. intros s Hs. apply zero_by_zero; auto. }
      assert (E2 : vdivs (F:=F) (map (tt64 ts (nt64 g)) (claims ts)) m' = nans (claims ts)).
      { unfold vdivs. rewrite map_map. apply map_ext_in. intros c Hc. apply zero_by_zero; auto. }
      rewrite E1, E2. reflexivity.
    - change (mv (sc d) (nans (claims ts))) with (mv (F:=F) (sc d) (map (fun _ : claim => nan64) (claims ts))). match goal with |- context [vmul ?w ?v] => replace (vmul w v) with (map (nt64 (fun _ => nan64)) (sources ts)) by (symmetry; exact (avlog_nt64 (fun _ => nan64))) end. rewrite (scT64 L b f ts d Hb).
      assert (E1 : map (nt64 (fun _ => nan64)) (sources ts) = nans (sources ts)).
      { apply map_ext_in. intros s Hs. unfold nt64, tb64. rewrite (nan_row (fun c : claim => Bmult mode_NE (ofZ64 1) nan64)); [apply nan_mul|now apply ne_claims_of|intros; apply nan_mul]. }
      assert (E2 : map (tt64 ts (nt64 (fun _ => nan64))) (claims ts) = nans (claims ts)).
      { apply map_ext_in. intros c Hc. unfold tt64. destruct (supporters_ne ts c Hc) as [s0 Hs0]. apply nan_row; [intros E; rewrite E in Hs0; destruct Hs0|]. intros s Hs.
        unfold nt64, tb64. rewrite (nan_row (fun c : claim => Bmult mode_NE (ofZ64 1) nan64)); [rewrite !nan_mul; reflexivity| |intros; apply nan_mul]. apply ne_claims_of. unfold supporters in Hs. apply filter_In in Hs. tauto. }
      rewrite E1, E2, (pymax_nans (sources ts) (src_ne ts NE)), (pymax_nans (claims ts) (cl_ne ts NE)). unfold vdivs. rewrite !map_map. reflexivity.
  Qed.
  (** if every source makes one claim only, every score is NaN after the first round and stays so: the condition above is needed *)
  Theorem C93_single_claims clock fuel p it lg r o' k : (forall s, In s (sources ts) -> length (claims_of ts s) = 1%nat) ->
    run (F:=F) clock fuel (AObj AverageLog p it lg) d = (Ok r, o') -> r_iterations r = Some k -> k <> 0%nat ->
    (forall s, In s (sources ts) -> trust_of r s = Some nan64) /\ (forall c, In c (claims ts) -> belief_of r c = Some nan64).
  Proof.
    intros One H Hk Hk0. apply (run_cases b f ts d Hb) in H. destruct H as (NE & x0 & k' & it' & E0 & El & x & Ef & ->).
    cbn in Hk. injection Hk as ->.
    assert (Q : scores (F:=F) AverageLog d x0 k = (nans (sources ts), nans (claims ts))).
    { destruct k as [|k]; [congruence|]. clear Hk0 El Ef. cbn [init] in E0. destruct (prior_beliefs p d) as [bel|] eqn:Ep; [|discriminate]. cbn in E0. injection E0 as <-.
      destruct (prior_low p bel Ep) as (g0 & Eg & Hg0). induction k as [|k IH].
      - cbn [scores]. rewrite (single_round64 _ bel One NE); [reflexivity|]. left. exists g0. split; [exact Eg|]. intros c Hc. destruct (Hg0 c Hc) as (q & Hq & Hq'). exists q. split; [exact Hq|]. pose proof (bpow_gt_0 radix2 (-120)). lra.
      - cbn [scores] in IH |- *. rewrite IH. rewrite (single_round64 _ _ One NE); [reflexivity|]. now right. }
    apply (final_ok AverageLog it' _ x) in Ef; [|discriminate]. rewrite Q in Ef. subst x. cbn [fst snd].
    match goal with |- (forall s, _ -> trust_of ?r s = _) /\ _ => assert (Rp : reports ts r (fun _ => nan64) (fun _ => nan64)) by (apply (reports64 L); reflexivity) end.
    destruct Rp as (Ra & Rb & _). split; intros y Hy; [rewrite Ra|rewrite Rb]; apply mem_In in Hy; rewrite Hy; reflexivity.
  Qed.
End C93.

(** Non-vacuity: the correctly rounded logarithm of PropsAccuracy is plausible, and the dataset there has sources with several claims. *)
Module Avlog64Examples.
  Import AccuracyExamples.
  Lemma lm_plausible : plausible_log lm.
  Proof.
    split.
    - pose proof (lm_log 1 ltac:(lia) ltac:(lia)) as [A B]. change (INR 1) with 1 in B. rewrite ln_1 in B. change (Z.of_nat 1) with 1%Z in *. split; [exact A|]. rewrite Rmult_0_r in B. apply Rabs_le_inv in B. lra.
    - intros n Hn. destruct (lm_log (Z.to_nat n) ltac:(lia) ltac:(lia)) as [A B]. rewrite Z2Nat.id in A, B by lia. split; [exact A|].
      assert (E : INR (Z.to_nat n) = IZR n) by (rewrite INR_IZR_INZ, Z2Nat.id; [reflexivity|lia]). rewrite E in B.
      assert (N2 : 2 <= IZR n) by (apply (IZR_le 2); lia).
      assert (Lo : 1 / 2 <= ln 2) by apply ln2_half.
      assert (L2 : ln 2 <= ln (IZR n)) by (destruct (Req_dec 2 (IZR n)) as [<-|]; [lra|left; apply ln_increasing; lra]).
      assert (Up : ln (IZR n) <= 53).
      { assert (G : IZR n <= exp 53).
        { apply Rle_trans with (2 ^ 53); [rewrite pow_IZR; apply IZR_le; exact (proj2 Hn)|]. assert (X : 2 <= exp 1) by (pose proof (exp_ineq1 1 ltac:(lra)); lra).
          replace (exp 53) with (exp 1 ^ 53); [apply pow_incr; lra|]. rewrite <- Rpower_pow by apply exp_pos. unfold Rpower. rewrite ln_exp. f_equal. rewrite INR_IZR_INZ. cbn. lra. }
        rewrite <- (ln_exp 53). destruct (Req_dec (IZR n) (exp 53)) as [<-|]; [lra|left; apply ln_increasing; lra]. }
      apply Rabs_le_inv in B. assert (Q : 0 < / 2 ^ 52 <= 1 / 256).
      { split; [apply Rinv_0_lt_compat, pow_lt; lra|]. replace (1 / 256) with (/ 2 ^ 8) by (cbn; lra). apply Rinv_le; [apply pow_lt; lra|apply Rle_pow; [lra|lia]]. }
      set (h := / 2 ^ 52) in *. clearbody h. split; [|nra].
      assert (H' : 0.55 <= ln 2).
      { assert (A1 : exp 0.275 * exp (-0.275) = 1) by (rewrite <- exp_plus; replace (0.275 + -0.275) with 0 by lra; apply exp_0). pose proof (exp_ineq1 (-0.275) ltac:(lra)) as A2. pose proof (exp_pos 0.275) as A3.
        assert (A4 : exp 0.275 <= 1.4) by nra. assert (A5 : exp 0.55 <= 2) by (replace 0.55 with (0.275 + 0.275) by lra; rewrite exp_plus; nra).
        rewrite <- (ln_exp 0.55). destruct (Req_dec (exp 0.55) 2) as [->|]; [lra|left; apply ln_increasing; [apply exp_pos|lra]]. }
      nra.
  Qed.
  (** any number of rounds on the dataset of PropsFloat *)
  Example many_rounds n : (1 <= n)%Z -> exists d : dataset nat nat nat (B64 lm), build (F:=B64 lm) false None ts = Ok d /\
    exists r, fst (run (F:=B64 lm) (fun _ => ofZ64 0) (Datatypes.S (Z.to_nat n)) (AObj AverageLog VOTED (IFixed n 0) None) d) = Ok r /\ r_iterations r = Some (Z.to_nat n) /\ scores_normal r.
  Proof.
    intros Hn. destruct builds as (d & E). exists d. split; [exact E|].
    assert (S1 : (Z.of_nat (length (sources ts)) <= 2 ^ 53)%Z) by (vm_compute; discriminate). assert (S2 : (Z.of_nat (length (claims ts)) <= 2 ^ 53)%Z) by (vm_compute; discriminate).
    assert (Two : exists s, (2 <= length (claims_of ts s))%nat) by (exists 1%nat; vm_compute; lia).
    exact (C93_avlog_float_returns lm lm_plausible false None ts d E S1 S2 (fun _ => ofZ64 0) (Datatypes.S (Z.to_nat n)) VOTED n 0 None Two ltac:(discriminate) Hn ltac:(lia)).
  Qed.
  (** three sources with one claim each *)
  Example single : forall s, In s (sources vs) -> length (claims_of vs s) = 1%nat.
  Proof. intros s H. vm_compute in H. repeat destruct H as [<-|H]; try reflexivity. destruct H. Qed.
End Avlog64Examples.
