(** C94: CRH in IEEE double arithmetic: every score is a number, for any number of rounds. *)
From Coq Require Import Reals Lra.
From Flocq Require Import Core IEEE754.BinarySingleNaN.
From Verif Require Import Base Num Sparse Spec SpecAlg Dataset DatasetProofs DatasetRep Iterators Algorithms Driver Rounds
  AlgRep AlgRounds PropsData PropsIter PropsRun PropsAlg Float PropsFloat PropsVote64 PropsTF64 PropsAccuracy PropsAvlog64.
Local Open Scope R_scope.

(** What is assumed of the C library's logarithm: for doubles between 2^-900 and 1 it is a number between -1000 and 0
    (log(2^-900) = -623.8...). *)
Definition usable_log (L : libm) : Prop :=
  forall x, double_in (bpow radix2 (-900)) 1 x -> double_in (-1000) 0 (lm_ln L x).

(** ** arithmetic *)
Lemma sub64 x y a b : isf x a -> isf y b -> -1 <= a - b <= 1 -> exists r, isf (Bminus mode_NE x y) r /\ -1 <= r <= 1.
Proof.
  intros [Fx <-] [Fy <-] H. pose proof (Bminus_correct 53 1024 _ _ mode_NE x y Fx Fy) as C.
  assert (Q : -1 <= rnd (B2R64 x - B2R64 y) <= 1).
  { split; [apply rnd_ge_fmt; [apply generic_format_opp, fmt_1|lra]|apply rnd_le_fmt; [exact fmt_1|lra]]. }
  rewrite Rlt_bool_true in C.
  - destruct C as (C1 & C2 & _). exists (rnd (B2R64 x - B2R64 y)). split; [split; [exact C2|exact C1]|exact Q].
  - apply Rle_lt_trans with 1; [apply Rabs_le; exact Q|]. change 1 with (bpow radix2 0). apply bpow_lt. lia.
Qed.
Lemma square64 x a : isf x a -> -1 <= a <= 1 -> within 0 1 (Bmult mode_NE x x).
Proof.
  intros H Ha. exists (rnd (a * a)). assert (P : 0 <= a * a <= 1) by nra. split; [|split; [apply (rnd_ge_fmt 0 _ fmt_0); tauto|apply rnd_le_fmt; [exact fmt_1|tauto]]].
  apply (mul64 x x a a 1 H H); [tauto|exact fmt_1|tauto|]. change 1 with (bpow radix2 0). apply bpow_lt. lia.
Qed.
(** a difference u - v with u >= 0 >= v *)
Lemma sub_neg64 x y a b e : isf x a -> isf y b -> 0 <= a -> b <= 0 -> a - b <= bpow radix2 e -> (-1074 <= e < 1024)%Z ->
  exists r, isf (Bminus mode_NE x y) r /\ a <= r <= bpow radix2 e.
Proof.
  intros Hx Hy Ha Hb' He Hr. pose proof (isf_fmt _ _ Hx) as Gx. destruct Hx as [Fx Ex], Hy as [Fy Ey]. pose proof (Bminus_correct 53 1024 _ _ mode_NE x y Fx Fy) as C.
  change (B2R x) with (B2R64 x) in C. change (B2R y) with (B2R64 y) in C. rewrite Ex, Ey in C.
  rewrite (no_overflow (a - b) (bpow radix2 e)) in C; [|apply fmt_bpow; lia|lra|apply bpow_lt; lia].
  destruct C as (C1 & C2 & _). exists (rnd (a - b)). split; [split; [exact C2|exact C1]|]. split; [apply rnd_ge_fmt; [exact Gx|lra]|apply rnd_le_fmt; [apply fmt_bpow; lia|exact He]].
Qed.
(** adding up only some of the terms gives at most as much, rounding included *)
Lemma subsum64 {A} (e : Z) (p : A -> bool) (g : A -> b64) (l : list A) (n : nat) (a c : b64) (ra rc : R) : (-1074 <= e <= 900)%Z -> (Z.of_nat (n + length l) <= 2 ^ 53)%Z ->
  isf a ra -> isf c rc -> 0 <= ra <= rc -> rc <= INR n * bpow radix2 e -> (forall x, In x l -> within 0 (bpow radix2 e) (g x)) ->
  exists ra' rc', isf (fold_left (Bplus mode_NE) (map (fun x => Bmult mode_NE (ofZ64 1) (g x)) (filter p l)) a) ra' /\ isf (fold_left (Bplus mode_NE) (map g l) c) rc' /\
    0 <= ra' <= rc' /\ rc' <= INR (n + length l) * bpow radix2 e /\ rc <= rc' /\ (forall x q, In x l -> isf (g x) q -> q <= rc').
Proof.
  intros He. revert n a c ra rc. induction l as [|x l IH]; intros n a c ra rc Hn Ha Hc Hac Hcn Hg.
  - exists ra, rc. cbn. rewrite Nat.add_0_r. repeat split; try apply Ha; try apply Hc; try lra. intros ? ? [].
  - cbn [length] in Hn. destruct (Hg x (or_introl eq_refl)) as (q & Hq & Hq').
    assert (G : generic_format radix2 fexp64 (INR (S n) * bpow radix2 e)) by (rewrite INR_IZR_INZ; apply fmt_int; lia).
    assert (B : INR (S n) * bpow radix2 e < bpow radix2 1024).
    { apply Rle_lt_trans with (bpow radix2 53 * bpow radix2 e).
      - apply Rmult_le_compat_r; [apply bpow_ge_0|]. rewrite INR_IZR_INZ. apply (IZR_le _ (2 ^ 53)). lia.
      - rewrite <- bpow_plus. apply bpow_lt. lia. }
    assert (Qc : rc + q <= INR (S n) * bpow radix2 e) by (rewrite S_INR; lra). assert (Qa : ra + q <= INR (S n) * bpow radix2 e) by lra.
    pose proof (add64 c (g x) rc q _ Hc Hq ltac:(lra) (proj1 Hq') G Qc B) as Sc.
    assert (L1 : rc <= rnd (rc + q)) by (apply rnd_ge_fmt; [exact (isf_fmt _ _ Hc)|lra]).
    assert (L2 : q <= rnd (rc + q)) by (apply rnd_ge_fmt; [exact (isf_fmt _ _ Hq)|lra]).
    assert (L3 : rnd (rc + q) <= INR (S n) * bpow radix2 e) by now apply rnd_le_fmt.
    assert (Hg' : forall y, In y l -> within 0 (bpow radix2 e) (g y)) by (intros y Hy; apply Hg; now right).
    assert (K : exists a' ra1, isf a' ra1 /\ 0 <= ra1 <= rnd (rc + q) /\
       fold_left (Bplus mode_NE) (map (fun x => Bmult mode_NE (ofZ64 1) (g x)) (filter p (x :: l))) a = fold_left (Bplus mode_NE) (map (fun x => Bmult mode_NE (ofZ64 1) (g x)) (filter p l)) a').
    { cbn [filter]. destruct (p x).
      - cbn [map fold_left]. eexists. exists (rnd (ra + q)). split; [|split; [|reflexivity]].
        + apply (add64 a _ ra q _ Ha (one_mul64 _ _ Hq (proj1 Hq')) ltac:(lra) (proj1 Hq') G Qa B).
        + split; [apply (rnd_ge_fmt 0 _ fmt_0); lra|apply rnd_le; lra].
      - exists a, ra. split; [exact Ha|]. split; [lra|reflexivity]. }
    destruct K as (a' & ra1 & Ha1 & Hr1 & ->). cbn [map fold_left].
    destruct (IH (S n) a' _ ra1 (rnd (rc + q)) ltac:(lia) Ha1 Sc Hr1 L3 Hg') as (ra' & rc' & I1 & I2 & I3 & I4 & I5 & I6).
    exists ra', rc'. split; [exact I1|]. split; [exact I2|]. split; [exact I3|]. cbn [length]. rewrite Nat.add_succ_r. split; [exact I4|]. split; [lra|].
    intros y q' [<-|Hy] Hy'; [rewrite (isf_fun _ _ _ Hy' Hq); lra|now apply (I6 y)].
Qed.

Lemma few_len {A} (p : A -> bool) l : (length (filter p l) <= length l)%nat.
Proof. induction l as [|x l IH]; cbn; [lia|]. destruct (p x); cbn; lia. Qed.

Section C94.
  Context {S V W : Type} {ES : Eqb S} {EV : Eqb V} {EW : Eqb W}.
  Variable L : libm.
  Hypothesis Log : usable_log L.
  Notation F := (B64 L).
  Notation data := (dataset S V W F).
  Notation claim := (V * W)%type.
  Notation result := (result S V W b64).
  Notation cap := (2 ^ 53)%Z.
  Variables (b : bool) (f : option (V -> W -> W -> option F)) (ts : list (S * V * W)) (d : data).
  Hypothesis Hb : build (F:=F) b f ts = Ok d.
  Hypothesis Small_s : (Z.of_nat (length (sources ts)) <= cap)%Z.
  Hypothesis Small_c : (Z.of_nat (length (claims ts)) <= cap)%Z.
  Variables (eps : F) (e0 : R).
  Hypothesis Heps : isf eps e0.
  Hypothesis Eps_range : bpow radix2 (-400) <= e0 <= bpow radix2 400.
  Let R0 : ds_rep (F:=F) ts f d := build_rep _ _ _ _ Hb.
  (** beliefs between 0 and 1 *)
  Definition unit_belief (g : claim -> b64) : Prop := forall c, In c (claims ts) -> within 0 1 (g c).
  Lemma loss64 g i s : unit_belief g -> nth_error (sources ts) i = Some s -> within 0 (bpow radix2 106) (crh_loss (F:=F) d (map g (claims ts)) i).
  Proof.
    intros Hg Hi. unfold crh_loss. rewrite (rep_nc _ _ _ R0). destruct (rep_sc _ _ _ R0) as (_ & _ & Qs). destruct (rep_mut _ _ _ R0) as (_ & _ & Qm).
    assert (Sq : forall k j, (k < length (claims ts))%nat -> (j < length (claims ts))%nat -> within 0 1 (crh_z (F:=F) d (map g (claims ts)) k j)).
    { intros k j Hk Hj. unfold crh_z. destruct (nth_error (claims ts) k) as [c|] eqn:Ec; [|apply nth_error_None in Ec; lia]. destruct (nth_error (claims ts) j) as [c'|] eqn:Ec'; [|apply nth_error_None in Ec'; lia].
      assert (Nb : @nth (num F) j (map g (claims ts)) (@n_ofZ F 0) = g c') by (apply nth_error_nth_eq; now rewrite nth_error_map, Ec').
      rewrite Nb. change (n_ofZ 0 : F) with (ofZ64 0). change (n_ofZ 1 : F) with (ofZ64 1). destruct (Hg c' (nth_error_In _ _ Ec')) as (q & Hq & Hq').
      destruct (sub64 (g c') (if Nat.eqb k j then ofZ64 1 else ofZ64 0) q (if Nat.eqb k j then 1 else 0) Hq) as (r & Hr & Hr'); [destruct (Nat.eqb k j); [exact one64|exact zero64]|destruct (Nat.eqb k j); lra|].
      destruct (square64 _ r Hr Hr') as (q2 & Hq2 & Hq2').
      unfold toarray. destruct (Qm k j c c' Ec Ec') as [Q1 Q2]. rewrite Q1. destruct (same_var c c') eqn:Es.
      - rewrite Q2 by reflexivity. exists q2. split; [|exact Hq2']. change (n_ofZ 1 : F) with (ofZ64 1). apply one_mul64; [exact Hq2|lra].
      - exists 0. split; [|lra]. destruct (mul_up64 (ofZ64 0) _ 0 q2 0 0 zero64 Hq2) as (M & _); [change (bpow radix2 0) with 1; lra|change (bpow radix2 0) with 1; lra|lia|].
        rewrite Rmult_0_l, (rnd_id 0 fmt_0) in M. exact M. }
    assert (Row : forall j, (j < length (claims ts))%nat -> within 0 (bpow radix2 53)
       (Bmult mode_NE (vsum (F:=F) (map (fun k => Bmult mode_NE (m_entry (sc d) i k) (crh_z (F:=F) d (map g (claims ts)) k j)) (filter (m_stored (sc d) i) (seq 0 (length (claims ts)))))) (ofZ64 1))).
    { intros j Hj. set (l := filter (m_stored (sc d) i) (seq 0 (length (claims ts)))).
      assert (El : map (fun k => Bmult mode_NE (m_entry (sc d) i k) (crh_z (F:=F) d (map g (claims ts)) k j)) l = map (fun k => Bmult mode_NE (ofZ64 1) (crh_z (F:=F) d (map g (claims ts)) k j)) l).
      { apply map_ext_in. intros k Hk. unfold l in Hk. apply filter_In in Hk. destruct Hk as (Hk & Hst). apply in_seq in Hk. destruct (nth_error (claims ts) k) as [c|] eqn:Ec; [|apply nth_error_None in Ec; lia].
        destruct (Qs i k s c Hi Ec) as [Q1 Q2]. rewrite Q2 by congruence. reflexivity. }
      assert (Ll : (Z.of_nat (length l) <= cap)%Z) by (unfold l; apply few_of; rewrite seq_length; exact Small_c).
      destruct (rowsum64 0 (fun k => crh_z (F:=F) d (map g (claims ts)) k j) l) as (r & H1 & H2 & _); [lia|exact Ll| |].
      { intros k Hk. unfold l in Hk. apply filter_In in Hk. destruct Hk as (Hk & _). apply in_seq in Hk. destruct (Sq k j ltac:(lia) Hj) as (q & Hq & Hq'). exists q. split; [exact Hq|change (bpow radix2 0) with 1; lra]. }
      unfold vsum. change (@n_add F) with (Bplus mode_NE (prec:=53) (emax:=1024)). change (n_ofZ 0 : F) with (ofZ64 0). rewrite El.
      pose proof (INR_few (length l) 0 Ll) as Up. change (0 + 53)%Z with 53%Z in Up.
      assert (Hr : 0 <= r <= bpow radix2 53) by lra. exists r. split; [|exact Hr].
      destruct (mul_up64 _ _ r 1 53 0 H1 one64 Hr) as (M & _); [change (bpow radix2 0) with 1; lra|lia|]. rewrite Rmult_1_r, (rnd_id r (isf_fmt _ _ H1)) in M. exact M. }
    destruct (sum64 53 (map (fun j => Bmult mode_NE (vsum (F:=F) (map (fun k => Bmult mode_NE (m_entry (sc d) i k) (crh_z (F:=F) d (map g (claims ts)) k j)) (filter (m_stored (sc d) i) (seq 0 (length (claims ts)))))) (ofZ64 1)) (seq 0 (length (claims ts)))) 0 (ofZ64 0) 0) as (r & H1 & H2 & _).
    - lia.
    - rewrite map_length, seq_length. exact Small_c.
    - exact zero64.
    - cbn. lra.
    - intros y Hy. apply in_map_iff in Hy. destruct Hy as (j & <- & Hj). apply in_seq in Hj. apply Row. lia.
    - exists r. split; [exact H1|]. rewrite map_length, seq_length in H2. split; [tauto|]. eapply Rle_trans; [apply H2|]. apply (INR_few _ 53). exact Small_c.
  Qed.
  (** what the loop computes from beliefs g *)
  Definition al64 (g : claim -> b64) (s : S) : b64 := Bplus mode_NE eps (crh_loss (F:=F) d (map g (claims ts)) (pos s (sources ts))).
  Definition alsum64 (g : claim -> b64) : b64 := fold_left (Bplus mode_NE) (map (al64 g) (sources ts)) (ofZ64 0).
  Definition ct64 (g : claim -> b64) (s : S) : b64 := Bminus mode_NE eps (lm_ln L (Bdiv mode_NE (al64 g s) (alsum64 g))).
  Definition ctsum64 (g : claim -> b64) : b64 := fold_left (Bplus mode_NE) (map (ct64 g) (sources ts)) (ofZ64 0).
  Definition cb64 (g : claim -> b64) (c : claim) : b64 := Bdiv mode_NE (tt64 ts (ct64 g) c) (ctsum64 g).
  Lemma crh_round64_eq (t0 : vec F) g : round (F:=F) (CRH eps) d (t0, map g (claims ts)) = UNext (F:=F) t0 (map (ct64 g) (sources ts)) (map (ct64 g) (sources ts), map (cb64 g) (claims ts)).
  Proof.
    cbn [round]. unfold crh_upd. rewrite (rep_ns _ _ _ R0).
    assert (Ea : map (fun s => n_add (n:=F) eps (crh_loss (F:=F) d (map g (claims ts)) s)) (seq 0 (length (sources ts))) = map (al64 g) (sources ts)).
    { apply map_seq_nth. intros i s Hi. unfold al64. rewrite (pos_nth_error _ _ _ (sources_NoDup ts) Hi). reflexivity. }
    rewrite Ea. rewrite map_map.
    assert (Et : map (fun x => n_sub (n:=F) eps (n_ln (n:=F) (n_div (n:=F) (al64 g x) (vsum (F:=F) (map (al64 g) (sources ts)))))) (sources ts) = map (ct64 g) (sources ts)) by reflexivity.
    rewrite Et. rewrite (scT64 L b f ts d Hb). unfold vdivs. rewrite map_map. reflexivity.
  Qed.
  Lemma bp_pos e : 0 < bpow radix2 e. Proof. apply bpow_gt_0. Qed.
  Lemma two_bp e x y : x <= bpow radix2 e -> y <= bpow radix2 e -> x + y <= bpow radix2 (e + 1).
  Proof. intros. rewrite bpow_plus. change (bpow radix2 1) with 2. lra. Qed.
  Lemma crh_round64 g : ts <> [] -> unit_belief g ->
    (forall s, In s (sources ts) -> within e0 (bpow radix2 401) (ct64 g s)) /\ unit_belief (cb64 g).
  Proof.
    intros NE Hg. pose proof (bp_pos (-400)) as P4.
    assert (A1 : forall s, In s (sources ts) -> within e0 (bpow radix2 401) (al64 g s)).
    { intros s Hs. destruct (loss64 g _ s Hg (nth_error_pos s (sources ts) Hs)) as (r & Hr & Hr').
      assert (U : e0 + r <= bpow radix2 401). { apply (two_bp 400); [tauto|]. eapply Rle_trans; [apply Hr'|apply bpow_le; lia]. }
      exists (rnd (e0 + r)). split; [apply (add64 _ _ e0 r (bpow radix2 401) Heps Hr); [lra|lra|apply fmt_bpow; lia|exact U|apply bpow_lt; lia]|].
      split; [apply rnd_ge_fmt; [exact (isf_fmt _ _ Heps)|lra]|apply rnd_up; [lia|exact U]]. }
    assert (A2 : forall s, In s (sources ts) -> within 0 (bpow radix2 401) (al64 g s)) by (intros s Hs; destruct (A1 s Hs) as (r & Hr & Hr'); exists r; split; [exact Hr|lra]).
    destruct (subsum64 401 (fun _ => true) (al64 g) (sources ts) 0 (ofZ64 0) (ofZ64 0) 0 0) as (_ & sm & _ & Hsm & _ & Usm & _ & Gsm); try exact zero64; try (cbn; lra); [lia|exact Small_s|exact A2|].
    cbn [Nat.add] in Usm. pose proof (INR_few _ 401 Small_s) as Us. change (401 + 53)%Z with 454%Z in Us.
    assert (Sm : sm <= bpow radix2 454) by lra. fold (alsum64 g) in Hsm.
    assert (A3 : forall s, In s (sources ts) -> within e0 (bpow radix2 401) (ct64 g s)).
    { intros s Hs. destruct (A1 s Hs) as (r & Hr & Hr'). pose proof (Gsm s r Hs Hr) as Hle.
      destruct (div_max64 _ _ r sm Hr Hsm ltac:(lra) ltac:(lra)) as (q & Hq & Hq' & _).
      assert (Lq : bpow radix2 (-854) <= q).
      { destruct (div_up64 _ _ r sm 401 (-400) Hr Hsm) as (G & _); [lra|lra|lia|]. rewrite (isf_fun _ _ _ Hq G). apply (div_low r sm (-400) 454); [lra|lra|lia]. }
      assert (B : bpow radix2 (-900) <= bpow radix2 (-854)) by (apply bpow_le; lia).
      assert (D : double_in (bpow radix2 (-900)) 1 (Bdiv mode_NE (al64 g s) (alsum64 g))) by (apply within_double; exists q; split; [exact Hq|lra]).
      apply Log in D. apply within_double in D. destruct D as (l & Hl & Hl').
      assert (K : 1000 <= bpow radix2 10) by (change (bpow radix2 10) with 1024; lra). assert (K2 : bpow radix2 10 <= bpow radix2 400) by (apply bpow_le; lia).
      destruct (sub_neg64 eps _ e0 l 401 Heps Hl) as (t & Ht & Ht'); [lra|lra|apply (two_bp 400); lra|lia|].
      exists t. split; [exact Ht|exact Ht']. }
    split; [exact A3|]. assert (A4 : forall s, In s (sources ts) -> within 0 (bpow radix2 401) (ct64 g s)) by (intros s Hs; destruct (A3 s Hs) as (r & Hr & Hr'); exists r; split; [exact Hr|lra]).
    intros c Hc.
    destruct (subsum64 401 (fun s => says ts s c) (ct64 g) (sources ts) 0 (ofZ64 0) (ofZ64 0) 0 0) as (u & v & Hu & Hv & Huv & _ & _ & Gv); try exact zero64; try (cbn; lra); [lia|exact Small_s|exact A4|].
    assert (Pv : 0 < v).
    { destruct (sources ts) as [|s l] eqn:Es; [exfalso; now apply (src_ne ts NE)|]. destruct (A3 s (or_introl eq_refl)) as (r & Hr & Hr'). pose proof (Gv s r (or_introl eq_refl) Hr). lra. }
    fold (ctsum64 g) in Hv. destruct (div_max64 _ _ u v Hu Hv Huv Pv) as (q & Hq & Hq' & _). exists q. split; [exact Hq|exact Hq'].
  Qed.
  Lemma crh_scores64 p x0 : ts <> [] -> init (F:=F) (CRH eps) p d = Some x0 -> forall k,
    exists t g, scores (F:=F) (CRH eps) d x0 k = (t, map g (claims ts)) /\ unit_belief g /\
      (k <> 0%nat -> exists t', t = map t' (sources ts) /\ forall s, In s (sources ts) -> within e0 (bpow radix2 401) (t' s)).
  Proof.
    intros NE E0. cbn [init] in E0. injection E0 as E0'. induction k as [|k (t & g & E & Hg & _)].
    - cbn [scores]. exists (vzeros (F:=F) (num_sources d)), (fun c => Bdiv mode_NE (tt64 ts (fun _ => ofZ64 1) c) (ofZ64 (Z.of_nat (length (sources ts))))).
      split; [|split; [|congruence]].
      + rewrite <- E0'. f_equal. assert (Sc : source_counts (F:=F) d = map (tt64 ts (fun _ => ofZ64 1)) (claims ts)).
        { unfold source_counts. rewrite (rep_ns _ _ _ R0), (ones64 L). apply (scT64 L b f ts d Hb). }
        rewrite Sc, (rep_ns _ _ _ R0). unfold vdivs. rewrite map_map. reflexivity.
      + intros c Hc. assert (N1 : (length (supporters ts c) <= length (sources ts))%nat) by (unfold supporters; apply few_len).
        assert (H1 : isf (tt64 ts (fun _ => ofZ64 1) c) (INR (length (supporters ts c)))) by (apply (count_exact (supporters ts c) 0); [cbn [Nat.add]; lia|exact zero64]).
        assert (H2 : isf (ofZ64 (Z.of_nat (length (sources ts)))) (INR (length (sources ts)))) by (rewrite INR_IZR_INZ; apply ofZ64_isf; lia).
        destruct (div_max64 _ _ _ _ H1 H2) as (q & Hq & Hq' & _); [split; [apply pos_INR|now apply le_INR]| |exists q; auto].
        apply lt_0_INR. pose proof (src_ne ts NE). destruct (sources ts); [congruence|cbn; lia].
    - destruct (crh_round64 g NE Hg) as (Q1 & Q2).
      assert (Er2 : round (F:=F) (CRH eps) d (scores (F:=F) (CRH eps) d x0 k) = UNext (F:=F) t (map (ct64 g) (sources ts)) (map (ct64 g) (sources ts), map (cb64 g) (claims ts))) by (rewrite E; apply crh_round64_eq).
      cbn [scores]. rewrite Er2. exists (map (ct64 g) (sources ts)), (cb64 g). split; [reflexivity|]. split; [exact Q2|]. intros _. exists (ct64 g). auto.
  Qed.

  (** all beliefs are numbers in [0,1]; after a round all trusts are numbers, at least eps *)
  Definition crh_normal (r : result) : Prop :=
    (forall c v, belief_of r c = Some v -> double_in 0 1 v) /\ (forall s v, trust_of r s = Some v -> double_in e0 (bpow radix2 401) v).
  Lemma crh_intro r t g : reports ts r t g -> unit_belief g -> (forall s, In s (sources ts) -> within e0 (bpow radix2 401) (t s)) -> crh_normal r.
  Proof.
    intros (Ra & Rb & _) Hg Ht. split.
    - intros c v. rewrite Rb. destruct (mem c (claims ts)) eqn:E; [|discriminate]. intros [= <-]. apply mem_In in E. apply within_double. auto.
    - intros s v. rewrite Ra. destruct (mem s (sources ts)) eqn:E; [|discriminate]. intros [= <-]. apply mem_In in E. apply within_double. auto.
  Qed.
  Theorem C94_crh_float clock fuel p it lg r o' k : run (F:=F) clock fuel (AObj (CRH eps) p it lg) d = (Ok r, o') -> r_iterations r = Some k -> k <> 0%nat -> crh_normal r.
  Proof.
    intros H Hk Hk0. apply (run_cases b f ts d Hb) in H. destruct H as (NE & x0 & k' & it' & E0 & El & x & Ef & ->).
    cbn in Hk. injection Hk as ->. destruct (crh_scores64 p x0 NE E0 k) as (t & g & E & Hg & Hn). destruct (Hn Hk0) as (t' & -> & N).
    apply (final_ok (F:=F) (CRH eps) it' _ x) in Ef; [|discriminate]. rewrite E in Ef. subst x. cbn [fst snd].
    apply (crh_intro _ t' g); [|exact Hg|exact N]. apply (reports64 L); reflexivity.
  Qed.
  (** all the partial results *)
  Theorem C94_crh_float_partial_results clock fuel p it lg l o' r : run_iter (F:=F) clock fuel (AObj (CRH eps) p it lg) d = (Ok l, o') -> In r l -> crh_normal r.
  Proof.
    intros H Hr. destruct (list_eq_dec (fun t t' => eq_dec_of t t') ts []) as [Ets|NE].
    { unfold run_iter in H. assert (Hz : num_claims d = 0%nat) by (rewrite (rep_nc _ _ _ R0), Ets; reflexivity). rewrite Hz in H. discriminate. }
    rewrite (run_iter_char clock ts f d R0 NE) in H. destruct (init (F:=F) (CRH eps) p d) as [x0|] eqn:E0; [|discriminate].
    destruct (it_loop _ _ _ fuel (reset it) 0) as [[q k] it'] eqn:El. destruct q as [[]|e]; [|discriminate]. cbn [final] in H. injection H as <- _.
    unfold partial_results, initial_log in Hr. cbn [logs_initial app length] in Hr. apply in_map_iff in Hr. destruct Hr as (i & <- & Hi).
    assert (Hi0 : i <> 0%nat) by (apply in_seq in Hi; lia).
    destruct (crh_scores64 p x0 NE E0 i) as (t & g & E & Hg & Hn). destruct (Hn Hi0) as (t' & -> & N).
    apply (crh_intro _ t' g); [|exact Hg|exact N].
    apply (reports64 L); [exact (f_equal (fun y => tdict (F:=F) ts (fst y)) E)|exact (f_equal (fun y => bdict (F:=F) ts (snd y)) E)].
  Qed.
  (** with a fixed number n >= 1 of rounds the run returns *)
  Theorem C94_crh_float_returns clock fuel p n st lg : ts <> [] -> p <> BadPrior -> (1 <= n)%Z -> (Z.to_nat n < fuel)%nat ->
    exists r, fst (run (F:=F) clock fuel (AObj (CRH eps) p (IFixed n st) lg) d) = Ok r /\ r_iterations r = Some (Z.to_nat n) /\ crh_normal r.
  Proof.
    intros NE Hp Hn Hf. destruct (C28_fixed_returns b f ts d Hb clock fuel (CRH eps) p n st lg NE) as (r & Hr); [discriminate|exact Hp|exact Hf|].
    destruct (run (F:=F) clock fuel (AObj (CRH eps) p (IFixed n st) lg) d) as [q o'] eqn:E. cbn in Hr. subst q. exists r. split; [reflexivity|].
    destruct (C28_fixed b f ts d Hb clock fuel (CRH eps) p n st lg r o' E) as (k & Ek & _ & Em & _). cbn in Em. subst k.
    split; [exact Ek|]. eapply C94_crh_float; [exact E|exact Ek|lia].
  Qed.
End C94.

(** the default eps = 1e-5 is in the range *)
Theorem C94_default_eps L : exists (eps : B64 L) e0, mk_crh (F:=B64 L) None = CRH eps /\ isf eps e0 /\ bpow radix2 (-17) <= e0 <= bpow radix2 (-16).
Proof.
  exists (Bdiv mode_NE (ofZ64 1) (ofZ64 100000)), (rnd (1 / 100000)). split; [reflexivity|].
  assert (H : isf (ofZ64 100000) 100000) by (apply (ofZ64_isf 100000); lia).
  destruct (div_up64 _ _ 1 100000 0 16 one64 H) as (A & B); [change (bpow radix2 0) with 1; lra|change (bpow radix2 16) with 65536; lra|lia|].
  split; [exact A|]. split; [|apply B]. apply (div_low 1 100000 0 17); [change (bpow radix2 0) with 1; lra|change (bpow radix2 17) with 131072; lra|lia].
Qed.

(** Non-vacuity: a correctly rounded logarithm is usable; the dataset of PropsFloat, any number of rounds *)
Module Crh64Examples.
  Import AccuracyExamples.
  Lemma lm_usable : usable_log lm.
  Proof.
    intros x [Fx [X1 X2]]. set (r := B2R64 x) in *. pose proof (bpow_gt_0 radix2 (-900)) as P.
    assert (Up : ln r <= 0) by (rewrite <- ln_1; destruct (Req_dec r 1) as [->|]; [lra|left; apply ln_increasing; lra]).
    assert (Lo : -900 <= ln r).
    { assert (G : exp (-900) <= r).
      { apply Rle_trans with (bpow radix2 (-900)); [|exact X1]. change (-900)%Z with (Z.opp 900). rewrite bpow_opp. rewrite opp_IZR, exp_Ropp. apply Rinv_le; [apply bpow_gt_0|].
        rewrite bpow_powerRZ. change (powerRZ (IZR radix2) 900) with (2 ^ (Pos.to_nat 900)).
        replace (exp 900) with (exp 1 ^ (Pos.to_nat 900)).
        - apply pow_incr. pose proof (exp_ineq1 1 ltac:(lra)). lra.
        - rewrite <- Rpower_pow by apply exp_pos. unfold Rpower. rewrite ln_exp, Rmult_1_r. f_equal. rewrite INR_IZR_INZ, positive_nat_Z. reflexivity. }
      rewrite <- (ln_exp (-900)). destruct (Req_dec (exp (-900)) r) as [->|]; [lra|left; apply ln_increasing; [apply exp_pos|lra]]. }
    cbn [lm lm_ln]. fold r. destruct (of_R_isf (ln r)) as (A & B).
    { apply Rle_lt_trans with (bpow radix2 10); [|apply bpow_lt; lia]. change (bpow radix2 10) with 1024. apply Rabs_le. lra. }
    split; [exact A|]. rewrite B. split; [|apply (rnd_le_fmt _ 0 fmt_0); exact Up].
    apply Rle_trans with (- IZR 900); [cbn; lra|]. apply rnd_ge_fmt; [|cbn; lra]. apply generic_format_opp.
    rewrite <- (Rmult_1_r (IZR 900)). change 1 with (bpow radix2 0). apply fmt_int; lia.
  Qed.
  Example many_rounds n : (1 <= n)%Z -> exists (d : dataset nat nat nat (B64 lm)) (eps : B64 lm) e0, build (F:=B64 lm) false None ts = Ok d /\ mk_crh (F:=B64 lm) None = CRH eps /\ isf eps e0 /\ 0 < e0 /\
    exists r, fst (run (F:=B64 lm) (fun _ => ofZ64 0) (Datatypes.S (Z.to_nat n)) (AObj (CRH (eps : B64 lm)) FIXED (IFixed n 0) None) d) = Ok r /\ r_iterations r = Some (Z.to_nat n) /\ crh_normal e0 r.
  Proof.
    intros Hn. destruct builds as (d & E). destruct (C94_default_eps lm) as (eps & e0 & E1 & E2 & E3 & E4). exists d, eps, e0. split; [exact E|]. split; [exact E1|]. split; [exact E2|].
    pose proof (bpow_gt_0 radix2 (-17)). split; [lra|].
    assert (S1 : (Z.of_nat (length (sources ts)) <= 2 ^ 53)%Z) by (vm_compute; discriminate). assert (S2 : (Z.of_nat (length (claims ts)) <= 2 ^ 53)%Z) by (vm_compute; discriminate).
    assert (Er : bpow radix2 (-400) <= e0 <= bpow radix2 400).
    { split; [eapply Rle_trans; [|exact E3]; apply bpow_le; lia|eapply Rle_trans; [exact E4|]; apply bpow_le; lia]. }
    exact (C94_crh_float_returns lm lm_usable false None ts d E S1 S2 eps e0 E2 Er (fun _ => ofZ64 0) (Datatypes.S (Z.to_nat n)) FIXED n 0 None ltac:(discriminate) ltac:(discriminate) Hn ltac:(lia)).
  Qed.
End Crh64Examples.
