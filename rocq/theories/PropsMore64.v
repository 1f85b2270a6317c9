(** C101: more support, no lower score - in IEEE doubles, rounding included. *)
From Coq Require Import Reals Lra.
From Flocq Require Import Core IEEE754.BinarySingleNaN.
From Verif Require Import Base Num Sparse Spec SpecAlg Dataset DatasetProofs DatasetRep Iterators Ranking Algorithms Driver Rounds
  AlgRep PropsData PropsIter PropsRun PropsAlg Float Mono64 PropsAccuracy PropsFloat PropsAvlog64 PropsCrh64 PropsInvest64 PropsInvestNaN PropsUsums64.
Local Open Scope R_scope.

Lemma nnum_nneg x : nnum x -> nneg x.
Proof.
  intros (N & Sg). apply nneg_cases. destruct x as [s|s| |s m e H]; cbn in N, Sg; try discriminate; subst.
  - right. exists 0. split; [split; reflexivity|lra].
  - now left.
  - right. exists (B2R64 (B754_finite false m e H)). split; [now split|]. now apply (nnum_R (B754_finite false m e H)).
Qed.
Lemma le_not_lt (x y : b64) : le64 x y -> Bltb y x = false.
Proof.
  unfold le64, Bleb, SpecFloat.SFleb, Bltb, SpecFloat.SFltb. change (SpecFloat.SFcompare (B2SF x) (B2SF y)) with (Bcompare x y). change (SpecFloat.SFcompare (B2SF y) (B2SF x)) with (Bcompare y x).
  rewrite (Bcompare_swap 53 1024 y x). destruct (Bcompare y x) as [[| |]|]; cbn; congruence.
Qed.
Lemma pymax_In L {A} (h : A -> b64) (l : list A) m : pymax (F:=B64 L) (map h l) = Some m -> exists x, In x l /\ m = h x.
Proof.
  destruct l as [|x l]; [discriminate|]. cbn [map pymax]. intros [= <-].
  assert (G : forall l a, (exists y, In y (x :: l) /\ a = h y) -> exists y, In y (x :: l) /\ fold_left (fun m y => if n_ltb (n:=B64 L) m y then y else m) (map h l) a = h y).
  { clear. intros l. assert (G : forall l0 l a, (forall z, In z l -> In z l0) -> (exists y, In y (x :: l0) /\ a = h y) -> exists y, In y (x :: l0) /\ fold_left (fun m y => if n_ltb (n:=B64 L) m y then y else m) (map h l) a = h y).
    { clear. intros l0. induction l as [|z l IH]; intros a Hl Ha; [exact Ha|]. cbn [map fold_left]. apply IH; [intros; apply Hl; now right|]. destruct (n_ltb (n:=B64 L) a (h z)); [|exact Ha]. exists z. split; [right; apply Hl; now left|reflexivity]. }
    intros a. now apply G. }
  apply G. exists x. split; [now left|reflexivity].
Qed.
(** A score divided by the largest score *)
Lemma by_largest L {A} (h h' : A -> b64) (l : list A) hi m : (forall x, In x l -> within 0 hi (h x)) -> pymax (F:=B64 L) (map h l) = Some m -> (forall x, In x l -> h' x = Bdiv mode_NE (h x) m) ->
  (forall x, In x l -> within 0 1 (h' x)) -> (exists x, In x l /\ h' x = ofZ64 1) -> forall x y, In x l -> In y l -> le64 (h x) (h y) -> le64 (h' x) (h' y).
Proof.
  intros Hh Hm Eh Hh' (z & Hz & Ez) x y Hx Hy Le. destruct (pymax_In L h l m Hm) as (w & Hw & ->). destruct (Hh w Hw) as (r & Hr & Pr & _).
  assert (P : 0 < r).
  { destruct (Rle_lt_or_eq_dec 0 r Pr) as [P|<-]; [exact P|]. exfalso. destruct (isf_zero _ Hr) as (sg & E0). rewrite (Eh z Hz), E0 in Ez. destruct (Hh z Hz) as (rz & (Fz & _) & _). destruct (h z) as [s|s| |s mm e Hm']; try discriminate Fz; clear - Ez; apply (f_equal (is_finite (prec:=53) (emax:=1024))) in Ez; change (is_finite (ofZ64 1)) with true in Ez; destruct sg, s; discriminate Ez. }
  destruct (Hh x Hx) as (a & Ha & _). destruct (Hh y Hy) as (b & Hb & _). destruct (Hh' x Hx) as (u & Hu & _). destruct (Hh' y Hy) as (v & Hv & _).
  apply (le_fin _ _ u v Hu Hv). rewrite (Eh x Hx) in Hu. rewrite (Eh y Hy) in Hv. apply (div_mono (h x) (h y) (h w) a b r Ha Hb Hr P) with (u := u) (v := v); auto. now apply (le_fin (h x) (h y) a b).
Qed.
Lemma within_nneg lo hi x : 0 <= lo -> within lo hi x -> nneg x.
Proof. intros P (r & Hr & H). apply (nneg_fin x r Hr). lra. Qed.
Lemma zero_nneg : nneg (ofZ64 0). Proof. reflexivity. Qed.

Lemma thousandth x : nneg x -> nneg (Bdiv mode_NE x (ofZ64 1000)).
Proof.
  intros H. apply nneg_cases in H. destruct H as [->|(a & Ha & Pa)]; [reflexivity|].
  assert (T : isf (ofZ64 1000) 1000) by (apply ofZ64_isf; lia). destruct (div_up64 x (ofZ64 1000) a 1000 1024 9 Ha T) as (D & P).
  - split; [exact Pa|]. destruct Ha as (Fa & <-). left. apply (Rle_lt_trans _ (Rabs (B2R64 x))); [apply Rle_abs|]. apply (abs_B2R_lt_emax 53 1024 x).
  - change (bpow radix2 9) with 512. lra.
  - lia.
  - apply (nneg_fin _ _ D). apply P.
Qed.
Lemma thousandth_mono x y : nneg x -> nneg y -> le64 x y -> le64 (Bdiv mode_NE x (ofZ64 1000)) (Bdiv mode_NE y (ofZ64 1000)).
Proof.
  intros Hx Hy Le. apply (le_cases x y Hx Hy) in Le. destruct Le as [->|(a & a' & Ha & Ha' & La)].
  - change (Bdiv mode_NE inf64 (ofZ64 1000)) with inf64. apply le_inf. now apply thousandth.
  - assert (T : isf (ofZ64 1000) 1000) by (apply ofZ64_isf; lia).
    assert (D : forall z q, nneg z -> isf z q -> exists w, isf (Bdiv mode_NE z (ofZ64 1000)) w).
    { intros z q Hz Hq. assert (Pq : 0 <= q) by (now apply (le_fin _ z 0 q zero64)). destruct (div_up64 z (ofZ64 1000) q 1000 1024 9 Hq T) as (D & P); [|change (bpow radix2 9) with 512; lra|lia|eauto].
      split; [exact Pq|]. destruct Hq as (Fq & <-). left. apply (Rle_lt_trans _ (Rabs (B2R64 z))); [apply Rle_abs|]. apply (abs_B2R_lt_emax 53 1024 z). }
    destruct (D x a Hx Ha) as (u & Hu). destruct (D y a' Hy Ha') as (v & Hv). apply (le_fin _ _ u v Hu Hv).
    apply (div_mono x y (ofZ64 1000) a a' 1000 Ha Ha' T) with (u := u) (v := v); auto. lra.
Qed.

Section More64.
  Context {S V W : Type} {ES : Eqb S} {EV : Eqb V} {EW : Eqb W}.
  Variable L : libm.
  Notation F := (B64 L).
  Notation data := (dataset S V W F).
  Notation claim := (V * W)%type.
  Notation result := (result S V W b64).
  Notation cap := (2 ^ 53)%Z.
  Variables (b : bool) (f : option (V -> W -> W -> option F)) (ts : list (S * V * W)) (d : data).
  Hypothesis Hb : build (F:=F) b f ts = Ok d.
  Hypothesis Small_s : (Z.of_nat (length (sources ts)) <= cap)%Z.
  Hypothesis Small_c : (Z.of_nat (length (claims ts)) <= cap)%Z.
  Let R0 : ds_rep (F:=F) ts f d := build_rep _ _ _ _ Hb.

  (** every source that makes the claim c also makes the claim c' *)
  Definition supported_by (c c' : claim) : Prop := forall s, says ts s c = true -> says ts s c' = true.
  (** the source s' makes every claim that s makes *)
  Definition repeats (s s' : S) : Prop := forall c, says ts s c = true -> says ts s' c = true.
  Lemma tt_mono t c c' : (forall s, In s (sources ts) -> nneg (t s)) -> supported_by c c' -> le64 (tt64 ts t c) (tt64 ts t c').
  Proof.
    intros Ht Hs. unfold tt64, supporters. apply (sum_mono t (fun s => says ts s c) (fun s => says ts s c') (sources ts)); [exact Ht|intros s _; apply Hs|exact zero_nneg|exact zero_nneg|reflexivity].
  Qed.
  Lemma tb_mono g s s' : (forall c, In c (claims ts) -> nneg (g c)) -> repeats s s' -> le64 (tb64 ts g s) (tb64 ts g s').
  Proof.
    intros Ht Hs. unfold tb64, claims_of. apply (sum_mono g (says ts s) (says ts s') (claims ts)); [exact Ht|intros c _; apply Hs|exact zero_nneg|exact zero_nneg|reflexivity].
  Qed.
  (** the scores of a state are ordered as the support *)
  Definition ordered (x : vec F * vec F) (sources_too : bool) : Prop :=
    exists t g, x = (map t (sources ts), map g (claims ts)) /\
      (forall c c', In c (claims ts) -> In c' (claims ts) -> supported_by c c' -> le64 (g c) (g c')) /\
      (sources_too = true -> forall s s', In s (sources ts) -> In s' (sources ts) -> repeats s s' -> le64 (t s) (t s')).
  Lemma tt_range t c hi : (-1074 <= hi <= 800)%Z -> (forall s, In s (sources ts) -> within 0 (bpow radix2 hi) (t s)) -> In c (claims ts) -> within 0 (bpow radix2 (hi + 53)) (tt64 ts t c).
  Proof.
    intros Hh Ht Hc. destruct (rowsum64 hi t (supporters ts c)) as (r & H1 & H2 & _); [exact Hh|now apply few_of|intros s Hs; apply Ht; unfold supporters in Hs; apply filter_In in Hs; tauto|].
    exists r. split; [exact H1|]. split; [lra|]. eapply Rle_trans; [apply H2|]. apply (INR_few _ hi). now apply few_of.
  Qed.
  Lemma ordered_sums p x0 k : ts <> [] -> init (F:=F) Sums p d = Some x0 -> ordered (scores (F:=F) Sums d x0 (Datatypes.S k)) true.
  Proof.
    intros NE E0. destruct (scores64 L b f ts d Hb Small_s Small_c NE p x0 E0 k) as (t0 & g & E & Hg & _).
    destruct (sums_round64 L b f ts d Hb Small_s Small_c NE t0 g Hg) as (t' & g' & (N1 & N2 & N3 & N4) & Er). pose proof (proj1 Hg) as Hg0.
    assert (Es : scores (F:=F) Sums d x0 (Datatypes.S k) = (map t' (sources ts), map g' (claims ts))).
    { cbn [scores]. assert (Q : round (F:=F) Sums d (scores (F:=F) Sums d x0 k) = UNext t0 (map t' (sources ts)) (map t' (sources ts), map g' (claims ts))) by (rewrite E; exact Er). rewrite Q. reflexivity. }
    cbn [round sums_upd] in Er. rewrite (sc64 L b f ts d Hb), (scT64 L b f ts d Hb) in Er.
    destruct (pymax (F:=F) (map (tb64 ts g) (sources ts))) as [m|] eqn:Em; [|discriminate]. destruct (pymax (F:=F) (map (tt64 ts (tb64 ts g)) (claims ts))) as [m'|] eqn:Em'; [|discriminate].
    injection Er as E1 E1b E2. clear E1b. unfold vdivs in E1, E2. rewrite map_map in E1, E2.
    pose proof (ext_in_map E1) as Q1. pose proof (ext_in_map E2) as Q2. cbn beta in Q1, Q2.
    assert (B1 : forall s, In s (sources ts) -> within 0 (bpow radix2 106) (tb64 ts g s)) by (intros s Hs; destruct (tb_finite ts Small_c g s Hs Hg0) as (r & Hr & Pr); exists r; auto).
    assert (B2 : forall c, In c (claims ts) -> within 0 (bpow radix2 159) (tt64 ts (tb64 ts g) c)) by (intros c Hc; apply (tt_range _ c 106); [lia|exact B1|exact Hc]).
    exists t', g'. split; [exact Es|]. split.
    - intros c c' Hc Hc' Sp. apply (by_largest L (tt64 ts (tb64 ts g)) g' (claims ts) (bpow radix2 159) m'); auto.
      { intros x Hx. symmetry. exact (Q2 x Hx). } apply tt_mono; [|exact Sp]. intros s Hs. apply (within_nneg 0 (bpow radix2 106)); [lra|auto].
    - intros _ s s' Hs Hs' Sp. apply (by_largest L (tb64 ts g) t' (sources ts) (bpow radix2 106) m); auto.
      { intros x Hx. symmetry. exact (Q1 x Hx). } apply tb_mono; [|exact Sp]. intros c Hc. apply (within_nneg 0 (bpow radix2 53)); [lra|auto].
  Qed.

  (** AverageLog *)
  Lemma nt_range g s : plausible_log L -> (forall c, In c (claims ts) -> within 0 (bpow radix2 53) (g c)) -> In s (sources ts) -> within 0 (bpow radix2 112) (nt64 L ts g s).
  Proof.
    intros Log Hg Hs. destruct (tb_finite ts Small_c g s Hs Hg) as (r & Hr & Hr'). unfold nt64. pose proof (claims_pos ts s Hs) as Cp. destruct (le_lt_dec 2 (length (claims_of ts s))) as [G|G].
    - destruct (w64_two L Log ts Small_c s Hs G) as (w & Hw & Hw'). pose proof (bpow_gt_0 radix2 (-54)).
      destruct (mul_up64 _ _ w r 6 106 Hw Hr) as (M1 & M2); [lra|exact Hr'|lia|]. exists (rnd (w * r)). split; [exact M1|exact M2].
    - pose proof (w64_one L Log ts Small_c s Hs ltac:(lia)) as Hw.
      destruct (mul_up64 _ _ 0 r 6 106 Hw Hr) as (M1 & M2); [pose proof (bpow_gt_0 radix2 6); lra|exact Hr'|lia|]. exists (rnd (0 * r)). split; [exact M1|exact M2].
  Qed.
  Lemma ordered_avlog p x0 k : plausible_log L -> (exists s, (2 <= length (claims_of ts s))%nat) -> init (F:=F) AverageLog p d = Some x0 -> ordered (scores (F:=F) AverageLog d x0 (Datatypes.S k)) false.
  Proof.
    intros Log Two E0. destruct (avlog_scores64 L Log b f ts d Hb Small_s Small_c p x0 Two E0 k) as (t0 & g & E & Hg & _).
    destruct (avlog_round64 L Log b f ts d Hb Small_s Small_c t0 g Hg) as (t' & g' & (N1 & N2 & N3 & N4) & _ & Er). pose proof (proj1 Hg) as Hg0.
    assert (Es : scores (F:=F) AverageLog d x0 (Datatypes.S k) = (map t' (sources ts), map g' (claims ts))).
    { cbn [scores]. assert (Q : round (F:=F) AverageLog d (scores (F:=F) AverageLog d x0 k) = UNext (F:=F) (map t' (sources ts)) t0 (map t' (sources ts), map g' (claims ts))) by (rewrite E; exact Er). rewrite Q. reflexivity. }
    cbn [round] in Er. unfold avlog_upd in Er. rewrite (avlog_nt64 L b f ts d Hb), (scT64 L b f ts d Hb) in Er.
    destruct (pymax (F:=F) (map (nt64 L ts g) (sources ts))) as [m|] eqn:Em; [|discriminate]. destruct (pymax (F:=F) (map (tt64 ts (nt64 L ts g)) (claims ts))) as [m'|] eqn:Em'; [|discriminate].
    injection Er as E1 E1b E2. clear E1 E1b. unfold vdivs in E2. rewrite map_map in E2. pose proof (ext_in_map E2) as Q2. cbn beta in Q2.
    assert (B1 : forall s, In s (sources ts) -> within 0 (bpow radix2 112) (nt64 L ts g s)) by (intros s Hs; now apply nt_range).
    assert (B2 : forall c, In c (claims ts) -> within 0 (bpow radix2 165) (tt64 ts (nt64 L ts g) c)) by (intros c Hc; apply (tt_range _ c 112); [lia|exact B1|exact Hc]).
    exists t', g'. split; [exact Es|]. split; [|discriminate].
    intros c c' Hc Hc' Sp. apply (by_largest L (tt64 ts (nt64 L ts g)) g' (claims ts) (bpow radix2 165) m'); auto.
    { intros x Hx. symmetry. exact (Q2 x Hx). } apply tt_mono; [|exact Sp]. intros s Hs. apply (within_nneg 0 (bpow radix2 112)); [lra|auto].
  Qed.
  (** CRH *)
  Lemma ordered_crh (eps : F) e0 p x0 k : usable_log L -> isf eps e0 -> bpow radix2 (-400) <= e0 <= bpow radix2 400 -> ts <> [] -> init (F:=F) (CRH eps) p d = Some x0 ->
    ordered (scores (F:=F) (CRH eps) d x0 (Datatypes.S k)) false.
  Proof.
    intros Log He He' NE E0. destruct (crh_scores64 L Log b f ts d Hb Small_s Small_c eps e0 He He' p x0 NE E0 k) as (t0 & g & E & Hg & _).
    destruct (crh_round64 L Log b f ts d Hb Small_s Small_c eps e0 He He' g NE Hg) as (Ct & Cb).
    assert (Q : round (F:=F) (CRH eps) d (scores (F:=F) (CRH eps) d x0 k) = UNext (F:=F) t0 (map (ct64 L ts d eps g) (sources ts)) (map (ct64 L ts d eps g) (sources ts), map (cb64 L ts d eps g) (claims ts))) by (rewrite E; apply (crh_round64_eq L b f ts d Hb)).
    assert (Es : scores (F:=F) (CRH eps) d x0 (Datatypes.S k) = (map (ct64 L ts d eps g) (sources ts), map (cb64 L ts d eps g) (claims ts))) by (cbn [scores]; rewrite Q; reflexivity).
    exists (ct64 L ts d eps g), (cb64 L ts d eps g). split; [exact Es|]. split; [|discriminate]. pose proof (bpow_gt_0 radix2 (-400)) as P0.
    assert (B1 : forall s, In s (sources ts) -> within 0 (bpow radix2 401) (ct64 L ts d eps g s)) by (intros s Hs; destruct (Ct s Hs) as (r & Hr & Hr'); exists r; split; [exact Hr|lra]).
    assert (B2 : forall c, In c (claims ts) -> within 0 (bpow radix2 454) (tt64 ts (ct64 L ts d eps g) c)) by (intros c Hc; apply (tt_range _ c 401); [lia|exact B1|exact Hc]).
    intros c c' Hc Hc' Sp. destruct (B2 c Hc) as (a & Ha & Pa). destruct (B2 c' Hc') as (a' & Ha' & Pa'). destruct (Cb c Hc) as (u & Hu & _). destruct (Cb c' Hc') as (v & Hv & _).
    apply (le_fin _ _ u v Hu Hv). unfold cb64 in Hu, Hv.
    assert (Dm : exists m, isf (ctsum64 L ts d eps g) m /\ 0 < m).
    { destruct (subsum64 401 (fun _ => true) (ct64 L ts d eps g) (sources ts) 0 (ofZ64 0) (ofZ64 0) 0 0) as (_ & m & _ & Hm & _ & _ & _ & Gm); try exact zero64; try (cbn; lra); [lia|exact Small_s|exact B1|].
      exists m. split; [exact Hm|]. clear Es Q E; destruct (sources ts) as [|s l] eqn:Es; [exfalso; now apply (src_ne ts NE)|]. destruct (Ct s (or_introl eq_refl)) as (r & Hr & Hr'). pose proof (Gm s r (or_introl eq_refl) Hr). lra. }
    destruct Dm as (m & Hm & Pm).
    apply (div_mono _ _ (ctsum64 L ts d eps g) a a' m Ha Ha' Hm Pm) with (u := u) (v := v); auto.
    apply (le_fin _ _ a a' Ha Ha'). apply tt_mono; [|exact Sp]. intros s Hs. apply (within_nneg 0 (bpow radix2 401)); [lra|auto].
  Qed.
  (** UnboundedSums *)
  Lemma scaled_mono {A} (g : A -> b64) (l : list A) : l <> [] -> (forall x, In x l -> nneg (g x)) ->
    exists h, rescale1 (F:=F) (map g l) = Some (map h l) /\ forall x y, In x l -> In y l -> le64 (g x) (g y) -> le64 (h x) (h y).
  Proof.
    intros Hl Hg. unfold rescale1. destruct (npmax_ne (F:=F) (map g l)) as (m & ->); [rewrite map_length; destruct l; [congruence|discriminate]|].
    destruct (n_ltb (n_ofZ 1000) m).
    - exists (fun x => Bdiv mode_NE (g x) (ofZ64 1000)). split; [unfold vdivs; now rewrite map_map|]. intros x y Hx Hy. apply thousandth_mono; auto.
    - exists g. auto.
  Qed.
  Lemma ordered_usums p x0 k : ts <> [] -> init (F:=F) UnboundedSums p d = Some x0 -> ordered (scores (F:=F) UnboundedSums d x0 (Datatypes.S k)) true.
  Proof.
    intros NE E0. destruct (clean_scores L b f ts d Hb Small_s Small_c NE p x0 E0 k) as (t & g & E & Ht & Hg).
    assert (P1 : forall s, In s (sources ts) -> nneg (tb64 ts g s)) by (intros; apply nnum_nneg, tb_nnum; exact Hg).
    assert (P2 : forall c, In c (claims ts) -> nneg (tt64 ts (tb64 ts g) c)) by (intros; apply nnum_nneg, tt_nnum; intros; apply tb_nnum; exact Hg).
    destruct (scaled_mono (tb64 ts g) (sources ts) (src_ne ts NE) P1) as (h1 & E1 & M1). destruct (scaled_mono (tt64 ts (tb64 ts g)) (claims ts) (cl_ne ts NE) P2) as (h2 & E2 & M2).
    assert (Q : round (F:=F) UnboundedSums d (scores (F:=F) UnboundedSums d x0 k) = UNext (F:=F) (map t (sources ts)) (map (tb64 ts g) (sources ts)) (map h1 (sources ts), map h2 (claims ts))).
    { rewrite E. cbn [round usums_upd]. rewrite (sc64 L b f ts d Hb), (scT64 L b f ts d Hb), E1, E2. reflexivity. }
    exists h1, h2. split; [cbn [scores]; rewrite Q; reflexivity|]. split.
    - intros c c' Hc Hc' Sp. apply M2; auto. apply tt_mono; [exact P1|exact Sp].
    - intros _ s s' Hs Hs' Sp. apply M1; auto. apply tb_mono; [|exact Sp]. intros c Hc. apply nnum_nneg. auto.
  Qed.
  (** the ranks of ordered scores are ordered *)
  Lemma ranks_mono {A} (g : A -> b64) (l : list A) (dec : Eqb A) (o : A -> A -> Prop) : (Z.of_nat (length l) <= cap)%Z -> (forall x, In x l -> nnum (g x)) ->
    (forall x y, In x l -> In y l -> o x y -> le64 (g x) (g y)) ->
    exists h, get_ranking_vector (F:=F) (map (g : A -> F) l) = Some (map h l) /\ forall x y, In x l -> In y l -> o x y -> le64 (h x) (h y).
  Proof.
    intros Sm Hg Ho. destruct (ranked L g l dec Hg) as (rk & Er & D). exists (fun x => ofZ64 (Z.of_nat (rk x))). split; [exact Er|].
    set (good := fun x : b64 => is_nan x = false).
    assert (G : forall x, In x l -> good (g x)) by (intros x Hx; apply (Hg x Hx)).
    assert (AG : forall y, In y (map g l) -> good y) by (intros y Hy; apply in_map_iff in Hy; destruct Hy as (z & <- & Hz); now apply G).
    assert (IM : forall x, In x l -> In (g x) (map g l)) by (intros; now apply in_map).
    assert (Bd : forall x, In x l -> (rk x <= length l)%nat).
    { intros x Hx. destruct (D x Hx) as (ds & <- & Hd & Hin & _). rewrite <- (map_length g l). apply (pigeon (F:=F) (good := good) ds (map g l)); auto.
      - intros y Hy. apply Hin in Hy. now apply AG.
      - intros y Hy. apply Hin in Hy. exists y. split; [tauto|]. apply (eqb_refl (F:=F) (good := good)). now apply AG. }
    intros x y Hx Hy Oxy. assert (Le : (rk x <= rk y)%nat).
    { apply Ho in Oxy; auto. destruct (Bltb (g x) (g y)) eqn:E.
      - apply Nat.lt_le_incl. apply (distinct_below_lt (F:=F) (good := good) (map g l) (g x) (g y)); auto.
      - assert (Q : n_eqb (n:=F) (g x) (g y) = true).
        { rewrite (on_eqb (F:=F) (good := good) (g x) (g y) (G x Hx) (G y Hy)). change (negb (Bltb (g x) (g y)) && negb (Bltb (g y) (g x)) = true). rewrite E. cbn [negb andb]. apply negb_true_iff.
          now apply le_not_lt. }
        apply Nat.eq_le_incl. apply (distinct_below_unique (F:=F) (good := good) (map g l) (g y)); auto. apply (distinct_below_eqb (F:=F) (good := good) _ (g x)); auto. }
    apply (le_fin _ _ (IZR (Z.of_nat (rk x))) (IZR (Z.of_nat (rk y)))); [apply ofZ64_isf; pose proof (Bd x Hx); lia|apply ofZ64_isf; pose proof (Bd y Hy); lia|]. apply IZR_le. lia.
  Qed.

  (** ** The theorems *)
  (** algorithms for which a claim with more support can be expected to score at least as high: the two variants of Sums always, AverageLog when some source makes
      at least two claims (else its scores are NaN: C93), CRH for any sensible epsilon; the logarithm of the C library only has to be roughly right (see C93, C94) *)
  Definition in_scope (a : alg F) : Prop :=
    match a with
    | Sums | UnboundedSums => True
    | AverageLog => plausible_log L /\ exists s, (2 <= length (claims_of ts s))%nat
    | CRH eps => usable_log L /\ double_in (bpow radix2 (-400)) (bpow radix2 400) eps
    | _ => False
    end.
  Definition orders_sources (a : alg F) : bool := match a with Sums | UnboundedSums => true | _ => false end.
  (** [r] is the result of a run, or one of the partial results of an iterated one *)
  Definition returned (a : alg F) (p : prior) (it : iterator F) (r : result) : Prop :=
    exists clock fuel lg o', run (F:=F) clock fuel (AObj a p it lg) d = (Ok r, o') \/ exists rs, run_iter (F:=F) clock fuel (AObj a p it lg) d = (Ok rs, o') /\ In r rs.

  Lemma ordered_all a p x0 k : ts <> [] -> in_scope a -> init (F:=F) a p d = Some x0 -> ordered (scores (F:=F) a d x0 (Datatypes.S k)) (orders_sources a).
  Proof.
    intros NE Sc E0. destruct a; cbn [in_scope] in Sc; try contradiction.
    - now apply (ordered_sums p).
    - destruct Sc as (Log & Two). now apply (ordered_avlog p).
    - destruct Sc as (Log & He). apply within_double in He. destruct He as (e0 & He & He'). now apply (ordered_crh _ e0 p).
    - now apply (ordered_usums p).
  Qed.
  Definition reported_order (r : result) (sources_too : bool) : Prop :=
    (forall c c' u u', supported_by c c' -> belief_of r c = Some u -> belief_of r c' = Some u' -> le64 u u') /\
    (sources_too = true -> forall s s' u u', repeats s s' -> trust_of r s = Some u -> trust_of r s' = Some u' -> le64 u u').
  Lemma order_intro (x : vec F * vec F) st (r : result) : ordered x st -> r_trust r = tdict (F:=F) ts (fst x) -> r_belief r = bdict (F:=F) ts (snd x) -> reported_order r st.
  Proof.
    intros (t & g & -> & Og & Ot) E1 E2. destruct (reports64 L ts r t g E1 E2) as (R1 & R2 & _). split.
    - intros c c' u u' Sp Hu Hu'. rewrite R2 in Hu, Hu'. destruct (mem c (claims ts)) eqn:M; [|discriminate]. destruct (mem c' (claims ts)) eqn:M'; [|discriminate].
      injection Hu as <-. injection Hu' as <-. apply Og; auto; now apply mem_In.
    - intros Hst s s' u u' Sp Hu Hu'. rewrite R1 in Hu, Hu'. destruct (mem s (sources ts)) eqn:M; [|discriminate]. destruct (mem s' (sources ts)) eqn:M'; [|discriminate].
      injection Hu as <-. injection Hu' as <-. apply Ot; auto; now apply mem_In.
  Qed.
  Lemma final_ordered a p it x0 k y : ts <> [] -> in_scope a -> init (F:=F) a p d = Some x0 -> final (F:=F) a it (scores (F:=F) a d x0 (Datatypes.S k)) = Ok y -> ordered y (orders_sources a).
  Proof.
    intros NE Sc E0 Ef. pose proof (ordered_all a p x0 k NE Sc E0) as Or.
    assert (Dec : a = UnboundedSums \/ a <> UnboundedSums) by (destruct a; (now left) || (right; discriminate)).
    destruct Dec as [->|N]; [|apply final_ok in Ef; [subst y; exact Or|exact N]].
    destruct Or as (t & g & E & Og & Ot). destruct (clean_scores L b f ts d Hb Small_s Small_c NE p x0 E0 (Datatypes.S k)) as (t2 & g2 & E' & Ht & Hg).
    rewrite E in E'. injection E' as Et Eg. pose proof (ext_in_map Et) as Qt. pose proof (ext_in_map Eg) as Qg.
    destruct (ranks_mono t (sources ts) _ repeats Small_s) as (h1 & E1 & M1). { intros s Hs. rewrite (Qt s Hs). auto. } { apply Ot. reflexivity. }
    destruct (ranks_mono g (claims ts) _ supported_by Small_c) as (h2 & E2 & M2). { intros s Hs. rewrite (Qg s Hs). auto. } { exact Og. }
    exists h1, h2. split; [|split; [exact M2|intros _; exact M1]].
    assert (Q : final (F:=F) UnboundedSums it (map (t : S -> F) (sources ts), map (g : claim -> F) (claims ts)) = Ok y) by (rewrite <- Ef; f_equal; symmetry; exact E).
    cbn [final fst snd] in Q. destruct it; try discriminate. rewrite E1, E2 in Q. injection Q as <-. reflexivity.
  Qed.
  Lemma returned_order a p it r k : in_scope a -> returned a p it r -> r_iterations r = Some k -> k <> 0%nat -> reported_order r (orders_sources a).
  Proof.
    intros Sc (clock & fuel & lg & o' & [H|(rs & H & Hr)]) Hk Hk0.
    - apply (run_cases (F:=F) b f ts d Hb) in H. destruct H as (NE & x0 & k' & it' & E0 & El & x & Ef & ->). cbn in Hk. injection Hk as ->. destruct k as [|k]; [congruence|].
      apply (order_intro x); [|reflexivity|reflexivity]. exact (final_ordered a p it' x0 k x NE Sc E0 Ef).
    - assert (NE : ts <> []) by (intros ->; destruct (proj1 (C26_empty b f [] d Hb clock fuel (AObj a p it lg)) eq_refl) as (_ & Q & _); rewrite H in Q; discriminate).
      rewrite (run_iter_char (F:=F) clock ts f d R0 NE) in H. destruct (init (F:=F) a p d) as [x0|] eqn:E0; [|discriminate].
      destruct (it_loop _ _ _ fuel (reset it) 0) as [[q n] it'] eqn:El. destruct q as [[]|e]; [|discriminate]. destruct (final _ _ _) eqn:Ef; [|discriminate]. injection H as <- _.
      unfold partial_results in Hr. apply in_app_iff in Hr. destruct Hr as [Hr|Hr].
      + unfold initial_log in Hr. destruct (logs_initial a); [|destruct Hr]. destruct Hr as [<-|[]]. cbn in Hk. congruence.
      + apply in_map_iff in Hr. destruct Hr as (j & <- & Hj). cbn in Hk. injection Hk as ->. destruct k as [|k]; [congruence|].
        apply (order_intro (scores (F:=F) a d x0 (Datatypes.S k))); [|reflexivity|reflexivity]. now apply (ordered_all a p).
  Qed.
  Lemma run_reports a p it clock fuel lg r o' k : in_scope a -> run (F:=F) clock fuel (AObj a p it lg) d = (Ok r, o') -> r_iterations r = Some k -> k <> 0%nat -> exists t g, reports ts r t g.
  Proof.
    intros Sc H Hk Hk0. apply (run_cases (F:=F) b f ts d Hb) in H. destruct H as (NE & x0 & k' & it' & E0 & El & x & Ef & ->). cbn in Hk. injection Hk as ->. destruct k as [|k]; [congruence|].
    destruct (final_ordered a p it' x0 k x NE Sc E0 Ef) as (t & g & -> & _). exists t, g. apply (reports64 L); reflexivity.
  Qed.
  (** A claim that is made by all the sources that make another claim never gets a lower belief than it, whatever the roundings. *)
  Theorem C101_more_support_belief a p it r k c c' u u' : in_scope a -> returned a p it r -> r_iterations r = Some k -> k <> 0%nat ->
    (forall s, says ts s c = true -> says ts s c' = true) -> belief_of r c = Some u -> belief_of r c' = Some u' -> Bleb u u' = true.
  Proof. intros Sc Hr Hk Hk0 Sp. apply (returned_order a p it r k Sc Hr Hk Hk0). exact Sp. Qed.
  (** A source that makes all the claims of another source never gets a lower trust than it. *)
  Theorem C101_more_claims_trust a p it r k s s' u u' : a = Sums \/ a = UnboundedSums -> returned a p it r -> r_iterations r = Some k -> k <> 0%nat ->
    (forall c, says ts s c = true -> says ts s' c = true) -> trust_of r s = Some u -> trust_of r s' = Some u' -> Bleb u u' = true.
  Proof.
    intros Ha Hr Hk Hk0 Sp. apply (returned_order a p it r k); auto; [destruct Ha as [->| ->]; exact Logic.I|destruct Ha as [->| ->]; reflexivity].
  Qed.
  (** So claims made by the same sources get the same belief ... *)
  Theorem C101_same_support_same_belief a p it r k c c' u u' : in_scope a -> returned a p it r -> r_iterations r = Some k -> k <> 0%nat ->
    (forall s, says ts s c = says ts s c') -> belief_of r c = Some u -> belief_of r c' = Some u' -> Beqb u u' = true.
  Proof.
    intros Sc Hr Hk Hk0 Sp Hu Hu'. assert (A : le64 u u') by (apply (C101_more_support_belief a p it r k c c'); auto; intros s; now rewrite Sp).
    assert (B : le64 u' u) by (apply (C101_more_support_belief a p it r k c' c); auto; intros s; now rewrite Sp).
    apply le_not_lt in B. revert A B. unfold le64, Bleb, SpecFloat.SFleb, Bltb, SpecFloat.SFltb, Beqb, SpecFloat.SFeqb. destruct (SpecFloat.SFcompare _ _) as [[| |]|]; cbn; congruence.
  Qed.
  (** ... and no belief is above that of a claim made by every source. *)
  Theorem C101_unanimous_first a p it r k c c' u u' : in_scope a -> returned a p it r -> r_iterations r = Some k -> k <> 0%nat ->
    (forall s, In s (sources ts) -> says ts s c' = true) -> belief_of r c = Some u -> belief_of r c' = Some u' -> Bleb u u' = true.
  Proof.
    intros Sc Hr Hk Hk0 Sp. apply (C101_more_support_belief a p it r k c c'); auto. intros s Hs. apply Sp. exact (says_source _ _ _ Hs).
  Qed.

  (** ** Investment: the same under the conditions of C95 *)
  (** the C library's pow does not decrease in its first argument *)
  Definition monotone_pow (g : F) : Prop :=
    forall x y, double_in 0 (bpow radix2 320) x -> double_in 0 (bpow radix2 320) y -> Bleb x y = true -> Bleb (lm_pow L x g) (lm_pow L y g) = true.
  Section Invest.
    Variable gm : F.
    Hypothesis Pow : usable_pow L gm.
    Hypothesis Mono : monotone_pow gm.
    Lemma ordered_invest p x0 k : ts <> [] -> init (F:=F) (Investment gm) p d = Some x0 ->
      (forall j s, (j <= k)%nat -> In s (sources ts) -> not_tiny (nth (pos s (sources ts)) (fst (scores (F:=F) (Investment gm) d x0 j)) (ofZ64 0))) ->
      ordered (scores (F:=F) (Investment gm) d x0 (Datatypes.S k)) false.
    Proof.
      intros NE E0 NT. destruct (inv_scores64 L gm Pow b f ts d Hb Small_s Small_c (Investment gm) p x0 (or_introl eq_refl) E0 NE k NT) as (t & g & E & Ht & Hg & Hc0 & _).
      destruct (inv_round64 L gm Pow b f ts d Hb Small_s Small_c t g Ht Hg Hc0) as (t' & g' & (N1 & N2 & N3 & N4) & _ & Er).
      assert (Es : scores (F:=F) (Investment gm) d x0 (Datatypes.S k) = (map t' (sources ts), map g' (claims ts))).
      { cbn [scores]. assert (Q : round (F:=F) (Investment gm) d (scores (F:=F) (Investment gm) d x0 k) = UNext (F:=F) (map t' (sources ts)) (map t (sources ts)) (map t' (sources ts), map g' (claims ts))) by (rewrite E; exact Er). rewrite Q. reflexivity. }
      cbn [round] in Er. unfold inv_upd in Er. rewrite (rd_update L b f ts d Hb Small_s Small_c t g Ht), (iv_vec L b f ts d Hb), (scT64 L b f ts d Hb) in Er.
      change (map (tt64 ts (iv64 ts (back64 ts t g))) (claims ts)) with (map (base64 ts t g) (claims ts)) in Er. rewrite map_map in Er.
      change (map (fun x : V * W => n_pow (n:=F) (base64 ts t g x) gm) (claims ts)) with (map (ret64 L gm ts t g) (claims ts)) in Er.
      destruct (pymax (F:=F) (map (back64 ts t g) (sources ts))) as [m|] eqn:Em; [|discriminate]. destruct (pymax (F:=F) (map (ret64 L gm ts t g) (claims ts))) as [m'|] eqn:Em'; [|discriminate].
      injection Er as E1 E1b E2. clear E1 E1b. unfold vdivs in E2. rewrite map_map in E2. pose proof (ext_in_map E2) as Q2. cbn beta in Q2.
      assert (Bk : forall s, In s (sources ts) -> within 0 (bpow radix2 259) (back64 ts t g s)) by (intros s Hs; destruct (rd_back ts Small_s Small_c t g Ht Hg s Hs) as (r & Hr & Hr' & _); exists r; auto).
      assert (Iv : forall s, In s (sources ts) -> within 0 (bpow radix2 259) (iv64 ts (back64 ts t g) s)) by (intros s Hs; apply (iv_zero ts Small_c _ s 259); [exact Hs|now apply Bk|lia]).
      assert (Bs : forall c, In c (claims ts) -> within 0 (bpow radix2 320) (base64 ts t g c)).
      { intros c Hc. destruct (rd_base ts Small_s Small_c t g Ht Hg c Hc) as (r & Hr & Hr' & _). exists r. split; [exact Hr|]. assert (bpow radix2 312 <= bpow radix2 320) by (apply bpow_le; lia). lra. }
      exists t', g'. split; [exact Es|]. split; [|discriminate].
      intros c c' Hc Hc' Sp. apply (by_largest L (ret64 L gm ts t g) g' (claims ts) (bpow radix2 800) m'); auto.
      - intros x Hx. destruct (rd_ret L gm Pow ts Small_s Small_c t g Ht Hg x Hx) as (r & Hr & Hr' & _). exists r. auto.
      - intros x Hx. symmetry. exact (Q2 x Hx).
      - apply Mono; [now apply within_double, Bs|now apply within_double, Bs|]. apply tt_mono; [|exact Sp]. intros s Hs. apply (within_nneg 0 (bpow radix2 259)); [lra|auto].
    Qed.
    (** Every partial result of Investment orders the beliefs by support, as long as no trust before it is below 2^-100. *)
    Theorem C101_investment_belief clock fuel p it lg l o' j r c c' u u' :
      run_iter (F:=F) clock fuel (AObj (Investment gm) p it lg) d = (Ok l, o') -> nth_error l j = Some r -> j <> 0%nat ->
      (forall i r', (i < j)%nat -> nth_error l i = Some r' -> trusts_not_tiny r') ->
      (forall s, says ts s c = true -> says ts s c' = true) -> belief_of r c = Some u -> belief_of r c' = Some u' -> Bleb u u' = true.
    Proof.
      intros H Hj Hj0 NT Sp. assert (NE : ts <> []) by (intros ->; destruct (proj1 (C26_empty b f [] d Hb clock fuel (AObj (Investment gm) p it lg)) eq_refl) as (_ & Q & _); rewrite H in Q; discriminate).
      rewrite (run_iter_char (F:=F) clock ts f d R0 NE) in H. destruct (init (F:=F) (Investment gm) p d) as [x0|] eqn:E0; [|discriminate].
      destruct (it_loop _ _ _ fuel (reset it) 0) as [[q k] it'] eqn:El. destruct q as [[]|e]; [|discriminate]. cbn [final] in H. injection H as <- _.
      set (a := Investment gm) in *.
      assert (Nth : forall i, (i <= k)%nat -> nth_error (partial_results (F:=F) clock ts d a x0 k) i = Some (partial_result (F:=F) clock ts d a x0 (1 + i) i)).
      { intros i Hi. unfold partial_results, initial_log, a. cbn [logs_initial app length]. destruct i as [|i]; [reflexivity|]. cbn [nth_error]. rewrite nth_error_map. rewrite (nth_error_nth' (seq 1 k) 0%nat) by (rewrite seq_length; lia). rewrite seq_nth by lia. reflexivity. }
      assert (Hk : (j <= k)%nat).
      { assert (G : nth_error (partial_results (F:=F) clock ts d a x0 k) j <> None) by (intros G; assert (X : Some r = None) by (exact (eq_trans (eq_sym Hj) G)); discriminate). apply nth_error_Some in G. unfold partial_results, initial_log, a in G. cbn [logs_initial] in G. rewrite app_length, map_length, seq_length in G. cbn in G. lia. }
      assert (X : Some r = Some (partial_result (F:=F) clock ts d a x0 (1 + j) j)) by (exact (eq_trans (eq_sym Hj) (Nth j Hk))). clear Hj. injection X as ->. destruct j as [|j]; [congruence|].
      assert (O : ordered (scores (F:=F) a d x0 (Datatypes.S j)) false).
      { apply (ordered_invest p); auto. intros i s Hi Hs. apply (logged_trust L ts (partial_result (F:=F) clock ts d a x0 (1 + i) i)); [reflexivity|exact Hs|]. apply (NT i); [lia|]. apply Nth. lia. }
      assert (RO : reported_order (partial_result (F:=F) clock ts d a x0 (1 + Datatypes.S j) (Datatypes.S j)) false) by (apply (order_intro (scores (F:=F) a d x0 (Datatypes.S j))); [exact O|reflexivity|reflexivity]).
      apply RO. exact Sp.
    Qed.
  End Invest.
End More64.

(** Non-vacuity: claim (1, 7) is made by everyone, claim (0, 6) by source 3 only. *)
Module More64Examples.
  Definition more : list (nat * nat * nat) := [(1,0,5); (2,0,5); (3,0,6); (1,1,7); (2,1,7); (3,1,7)]%nat.
  Lemma built L : exists d : dataset nat nat nat (B64 L), build (F:=B64 L) false None more = Ok d.
  Proof.
    assert (ND : NoDup (sv_pairs more)) by (unfold more, sv_pairs; cbn; repeat constructor; cbn; intuition congruence).
    destruct (build_strict (F:=B64 L) None more) as [(_ & _ & d & E & _)|[(_ & N & _)|(s & x & H & _)]].
    - exists d. exact E.
    - exfalso. apply N. intros c c' q _ _ H. unfold imp_val in H. destruct (_ && _)%bool; discriminate.
    - exfalso. exact (first_repeat_not_NoDup _ _ _ H ND).
  Qed.
  Lemma small : (Z.of_nat (length (sources more)) <= 2 ^ 53)%Z /\ (Z.of_nat (length (claims more)) <= 2 ^ 53)%Z.
  Proof. vm_compute. split; discriminate. Qed.
  Lemma wider : forall s, says more s (0, 6)%nat = true -> says more s (1, 7)%nat = true.
  Proof. intros s. unfold says, more. cbn [existsb]. destruct s as [|[|[|[|s]]]]; cbn; congruence. Qed.
  Definition lm := AccuracyExamples.lm.
  Lemma scope_avlog : in_scope lm more AverageLog.
  Proof. split; [exact Avlog64Examples.lm_plausible|]. exists 1%nat. vm_compute. lia. Qed.
  Lemma scope_crh : exists eps : B64 lm, mk_crh (F:=B64 lm) None = CRH eps /\ in_scope lm more (CRH (eps : B64 lm)).
  Proof.
    destruct (C94_default_eps lm) as (eps & e0 & E1 & E2 & E3 & E4). exists eps. split; [exact E1|]. split; [exact Crh64Examples.lm_usable|]. apply within_double. exists e0. split; [exact E2|].
    split; [eapply Rle_trans; [|exact E3]; apply bpow_le; lia|eapply Rle_trans; [exact E4|]; apply bpow_le; lia].
  Qed.
  Lemma shown (a : alg (B64 lm)) p it clock fuel lg (d : dataset nat nat nat (B64 lm)) r o' k : build (F:=B64 lm) false None more = Ok d -> in_scope lm more a ->
    run (F:=B64 lm) clock fuel (AObj a p it lg) d = (Ok r, o') -> r_iterations r = Some k -> k <> 0%nat ->
    exists u u', belief_of r (0, 6)%nat = Some u /\ belief_of r (1, 7)%nat = Some u' /\ Bleb u u' = true.
  Proof.
    intros E Sc H Hk Hk0. destruct (run_reports lm false None more d E (proj1 small) (proj2 small) a p it clock fuel lg r o' k Sc H Hk Hk0) as (t & g & _ & R2 & _).
    exists (g (0, 6)%nat), (g (1, 7)%nat). assert (B1 : belief_of r (0, 6)%nat = Some (g (0, 6)%nat)) by (exact (R2 (0, 6)%nat)). assert (B2 : belief_of r (1, 7)%nat = Some (g (1, 7)%nat)) by (exact (R2 (1, 7)%nat)).
    split; [exact B1|]. split; [exact B2|]. apply (C101_more_support_belief lm false None more d E (proj1 small) (proj2 small) a p it r k (0, 6)%nat (1, 7)%nat); auto; [|exact wider].
    exists clock, fuel, lg, o'. now left.
  Qed.
  (** any number of rounds of Sums, AverageLog and CRH *)
  Example many_rounds (a : alg (B64 lm)) p n : a = Sums \/ a = AverageLog -> p <> BadPrior -> (1 <= n)%Z -> exists d : dataset nat nat nat (B64 lm), build (F:=B64 lm) false None more = Ok d /\
    exists r u u', fst (run (F:=B64 lm) (fun _ => ofZ64 0) (Datatypes.S (Z.to_nat n)) (AObj a p (IFixed n 0) None) d) = Ok r /\ r_iterations r = Some (Z.to_nat n) /\
      belief_of r (0, 6)%nat = Some u /\ belief_of r (1, 7)%nat = Some u' /\ Bleb u u' = true.
  Proof.
    intros Ha Hp Hn. destruct (built lm) as (d & E). exists d. split; [exact E|].
    destruct (fixed_run lm false None more d E (fun _ => ofZ64 0) (Datatypes.S (Z.to_nat n)) a p n 0 None ltac:(discriminate) Ha Hp ltac:(lia)) as (r & o' & H & Hk).
    assert (Sc : in_scope lm more a) by (destruct Ha as [->| ->]; [exact Logic.I|exact scope_avlog]).
    destruct (shown a p _ _ _ _ d r o' _ E Sc H Hk ltac:(lia)) as (u & u' & H1). exists r, u, u'. rewrite H. auto.
  Qed.
  Example many_rounds_crh n : (1 <= n)%Z -> exists (eps : B64 lm) (d : dataset nat nat nat (B64 lm)), mk_crh (F:=B64 lm) None = CRH eps /\ build (F:=B64 lm) false None more = Ok d /\
    exists r u u', fst (run (F:=B64 lm) (fun _ => ofZ64 0) (Datatypes.S (Z.to_nat n)) (AObj (CRH (eps : B64 lm)) FIXED (IFixed n 0) None) d) = Ok r /\ r_iterations r = Some (Z.to_nat n) /\
      belief_of r (0, 6)%nat = Some u /\ belief_of r (1, 7)%nat = Some u' /\ Bleb u u' = true.
  Proof.
    intros Hn. destruct (built lm) as (d & E). destruct (C94_default_eps lm) as (eps & e0 & E1 & E2 & E3 & E4). exists eps, d. split; [exact E1|]. split; [exact E|].
    assert (Er : bpow radix2 (-400) <= e0 <= bpow radix2 400) by (split; [eapply Rle_trans; [|exact E3]; apply bpow_le; lia|eapply Rle_trans; [exact E4|]; apply bpow_le; lia]).
    destruct (C94_crh_float_returns lm Crh64Examples.lm_usable false None more d E (proj1 small) (proj2 small) eps e0 E2 Er (fun _ => ofZ64 0) (Datatypes.S (Z.to_nat n)) FIXED n 0 None ltac:(discriminate) ltac:(discriminate) Hn ltac:(lia)) as (r & Hr & Hk & _).
    destruct (run (F:=B64 lm) (fun _ => ofZ64 0) (Datatypes.S (Z.to_nat n)) (AObj (CRH (eps : B64 lm)) FIXED (IFixed n 0) None) d) as [q o'] eqn:Q. cbn [fst] in Hr. subst q.
    assert (Sc : in_scope lm more (CRH (eps : B64 lm))) by (split; [exact Crh64Examples.lm_usable|]; apply within_double; exists e0; split; [exact E2|exact Er]).
    destruct (shown (CRH (eps : B64 lm)) FIXED _ _ _ _ d r o' _ E Sc Q Hk ltac:(lia)) as (u & u' & H1). exists r, u, u'. auto.
  Qed.
  (** a pow that squares exactly for g = 2 is monotone, so C101 applies to Investment with it *)
  Lemma squares_monotone ln' exp' pw : monotone_pow (squaring ln' exp' pw) (ofZ64 2 : B64 (squaring ln' exp' pw)).
  Proof.
    intros x y (Fx & Hx) (Fy & Hy) H. change (lm_pow (squaring ln' exp' pw) x (ofZ64 2)) with (Bmult mode_NE x x). change (lm_pow (squaring ln' exp' pw) y (ofZ64 2)) with (Bmult mode_NE y y).
    destruct (mul_up64 x x _ _ 320 320 (conj Fx eq_refl) (conj Fx eq_refl) Hx Hx ltac:(lia)) as (A & _). destruct (mul_up64 y y _ _ 320 320 (conj Fy eq_refl) (conj Fy eq_refl) Hy Hy ltac:(lia)) as (B & _).
    apply (le_fin _ _ _ _ A B). apply rnd_le. assert (Q : B2R64 x <= B2R64 y) by (apply (le_fin x y _ _ (conj Fx eq_refl) (conj Fy eq_refl)); exact H). apply Rmult_le_compat; tauto.
  Qed.
End More64Examples.
