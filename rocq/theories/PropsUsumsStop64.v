(** C109: UnboundedSums with an ordinal iterator in double arithmetic: when it stops, and with which ranks. *)
From Coq Require Import ZArith Reals Lia Lra.
From Flocq Require Import Core IEEE754.BinarySingleNaN.
From Verif Require Import Base Num Sparse Spec SpecAlg Dataset DatasetProofs DatasetRep Iterators Algorithms Driver Ranking Rounds AlgRep AlgPack Float Mono64 PropsRun PropsAlg PropsFloat PropsVote64 PropsAvlog64 PropsUsums64 PropsOrdStop64.
Local Open Scope nat_scope.

(** ** Specification: the recurrence of UnboundedSums in doubles *)
Section Spec64.
  Context {S V W : Type} {ES : Eqb S} {EV : Eqb V} {EW : Eqb W}.
  Variable ts : list (S * V * W).
  Notation claim := (V * W)%type.
  (** sum from left to right, every addition rounded *)
  Definition sum64 {A} (g : A -> b64) (l : list A) : b64 := fold_left (Bplus mode_NE) (map g l) (ofZ64 0).
  (** the scores, all divided by 1000 if one of them is over 1000 *)
  Definition by_1000 {A} (l : list A) (g : A -> b64) (x : A) : b64 := if existsb (fun y => Bltb (ofZ64 1000) (g y)) l then Bdiv mode_NE (g x) (ofZ64 1000) else g x.
  Definition scores64 : Type := (S -> b64) * (claim -> b64).
  (** the trust scores of the next round, before they are divided *)
  Definition new_trust (x : scores64) (s : S) : b64 := sum64 (snd x) (claims_of ts s).
  Definition usums64 (x : scores64) : scores64 := (by_1000 (sources ts) (new_trust x), by_1000 (claims ts) (fun c => sum64 (new_trust x) (supporters ts c))).
  Fixpoint rounds64 (x : scores64) (k : nat) : scores64 := match k with O => x | Datatypes.S k => usums64 (rounds64 x k) end.
  (** prior beliefs *)
  Definition how_many {A} (l : list A) : b64 := ofZ64 (Z.of_nat (length l)).
  Definition prior_in_doubles (p : prior) : option (claim -> b64) :=
    match p with
    | FIXED => Some (fun _ => Bdiv mode_NE (ofZ64 1) (ofZ64 2))
    | COUNT => Some (fun c => how_many (supporters ts c))
    | VOTED => Some (fun c => Bdiv mode_NE (how_many (supporters ts c)) (sum64 (fun c' => how_many (supporters ts c')) (rivals ts c)))
    | UNIFORM => Some (fun c => Bdiv mode_NE (ofZ64 1) (how_many (rivals ts c)))
    | BadPrior => None
    end.
  (** the new trust scores put the sources in the order of the old ones, ties included *)
  Definition same_ranking64 (x : scores64) : Prop := forall s s', In s (sources ts) -> In s' (sources ts) -> Bltb (fst x s) (fst x s') = Bltb (new_trust x s) (new_trust x s').
  (** so it was in the last t of k rounds *)
  Definition settled64 (x : scores64) (t : Z) (k : nat) : Prop := (t <= Z.of_nat k)%Z /\ forall j, j < k -> (Z.of_nat k - t <= Z.of_nat j)%Z -> same_ranking64 (rounds64 x j).
End Spec64.

(** ** Doubles that are neither NaN nor negative *)
Lemma nnum_cases x : nnum x -> x = inf64 \/ x = B754_zero false \/ exists r, isf x r /\ (0 < r)%R.
Proof.
  intros (N & Sg). destruct x as [s|s| |s m e H]; cbn in N, Sg; try discriminate; subst s; [right; now left|now left|]. right. right. eexists. split; [split; reflexivity|].
  apply F2R_gt_0. cbn. lia.
Qed.
Lemma one_mult_same x : nnum x -> Bmult mode_NE (ofZ64 1) x = x.
Proof.
  intros H. destruct (nnum_cases x H) as [->|[->|(r & Hr & P)]].
  - exact one_mult_inf.
  - apply B2SF_inj. vm_compute. reflexivity.
  - pose proof (one_mul64 x r Hr ltac:(lra)) as [F1 E1]. destruct Hr as [F2 E2]. apply B2R_inj; [| |congruence]; apply is_finite_strict_B2R; [rewrite E1|rewrite E2]; lra.
Qed.
Lemma over_max x y : nnum x -> nnum y -> Bltb (ofZ64 1000) (if Bltb x y then y else x) = (Bltb (ofZ64 1000) x || Bltb (ofZ64 1000) y)%bool.
Proof.
  assert (K : isf (ofZ64 1000) 1000) by (apply (ofZ64_isf 1000); lia).
  assert (C : forall z, nnum z -> z = inf64 \/ exists r, isf z r) by (intros z H; destruct (nnum_cases z H) as [->|[->|(r & Hr & _)]]; [now left|right; exists 0%R; split; reflexivity|right; eauto]).
  assert (I1 : forall z r, isf z r -> Bltb z inf64 = true) by (intros z r (Fz & _); destruct z as [[]|[]| |[] m e H]; try discriminate; reflexivity).
  assert (I2 : forall z r, isf z r -> Bltb inf64 z = false) by (intros z r (Fz & _); destruct z as [[]|[]| |[] m e H]; try discriminate; reflexivity).
  intros Hx Hy. destruct (C x Hx) as [->|(r & Hr)]; destruct (C y Hy) as [->|(r' & Hr')].
  - reflexivity.
  - rewrite (I2 _ _ Hr'). rewrite (I1 _ _ K). reflexivity.
  - rewrite (I1 _ _ Hr), (I1 _ _ K). now rewrite orb_true_r.
  - rewrite (ltb64 _ _ _ _ Hr Hr'), (ltb64 _ _ _ _ K Hr), (ltb64 _ _ _ _ K Hr'). destruct (rltb_spec r r').
    + rewrite (ltb64 _ _ _ _ K Hr'). destruct (rltb_spec 1000 r), (rltb_spec 1000 r'); try reflexivity; lra.
    + rewrite (ltb64 _ _ _ _ K Hr). destruct (rltb_spec 1000 r), (rltb_spec 1000 r'); try reflexivity; lra.
Qed.
Lemma nnum_self x : nnum x -> Beqb x x = true.
Proof.
  intros H. destruct (nnum_cases x H) as [->|[->|(r & Hr & _)]]; [reflexivity|reflexivity|]. destruct Hr as [Fx Ex]. rewrite Beqb_correct by assumption. now apply Req_bool_true.
Qed.

Section C109.
  Context {S V W : Type} {ES : Eqb S} {EV : Eqb V} {EW : Eqb W}.
  Variable L : libm.
  Notation F := (B64 L).
  Notation data := (dataset S V W F).
  Notation claim := (V * W)%type.
  Notation cap := (2 ^ 53)%Z.
  Lemma rescale_by {A} (g : A -> b64) (l : list A) : l <> [] -> (forall x, In x l -> nnum (g x)) -> rescale1 (F:=F) (map g l) = Some (map (by_1000 l g) l).
  Proof.
    intros Hl H. unfold rescale1.
    assert (Q : forall l' m, nnum m -> (forall x, In x l' -> nnum (g x)) -> exists m', fold_left (fun m y : b64 => if Beqb m m then (if Beqb y y then (if Bltb m y then y else m) else y) else m) (map g l') m = m' /\
      Bltb (ofZ64 1000) m' = (Bltb (ofZ64 1000) m || existsb (fun y => Bltb (ofZ64 1000) (g y)) l')%bool).
    { clear. induction l' as [|x l' IH]; intros m Hm H; [exists m; split; [reflexivity|cbn; now rewrite orb_false_r]|]. cbn [map fold_left existsb].
      pose proof (H x (or_introl eq_refl)) as Hx. rewrite (nnum_self m Hm), (nnum_self (g x) Hx). destruct (IH (if Bltb m (g x) then g x else m)) as (m' & E & B).
      - destruct (Bltb m (g x)); assumption.
      - intros; apply H; now right.
      - exists m'. split; [exact E|]. rewrite B, over_max by assumption. now rewrite orb_assoc. }
    destruct l as [|x l]; [congruence|]. destruct (Q l (g x)) as (m & E & B); [apply H; now left|intros; apply H; now right|].
    change (npmax (F:=F) (map g (x :: l))) with (Some (fold_left (fun m y : b64 => if Beqb m m then (if Beqb y y then (if Bltb m y then y else m) else y) else m) (map g l) (g x))). rewrite E.
    change (n_ltb (n:=F) (n_ofZ (n:=F) 1000) m) with (Bltb (ofZ64 1000) m). unfold by_1000. cbn [existsb]. rewrite B.
    destruct (Bltb (ofZ64 1000) (g x) || existsb (fun y => Bltb (ofZ64 1000) (g y)) l)%bool; [|reflexivity]. unfold vdivs. rewrite map_map. reflexivity.
  Qed.

  Variables (b : bool) (f : option (V -> W -> W -> option b64)) (ts : list (S * V * W)) (d : data).
  Hypothesis Hb : build (F:=F) b f ts = Ok d.
  Hypothesis Few_s : (Z.of_nat (length (sources ts)) < cap)%Z.
  Hypothesis Few_c : (Z.of_nat (length (claims ts)) < cap)%Z.
  Hypothesis NE : ts <> [].
  Let R0 : ds_rep (F:=F) ts f d := build_rep _ _ _ _ Hb.
  Definition fine (x : scores64) : Prop := (forall s, In s (sources ts) -> nnum (fst x s)) /\ (forall c, In c (claims ts) -> nnum (snd x c)).
  Definition vecs (x : scores64) : vec F * vec F := ((map (fst x) (sources ts) : list b64) : vec F, (map (snd x) (claims ts) : list b64) : vec F).

  Lemma tb_sum (g : claim -> b64) s : (forall c, In c (claims ts) -> nnum (g c)) -> tb64 ts g s = sum64 g (claims_of ts s).
  Proof. intros H. unfold tb64, sum64. f_equal. apply map_ext_in. intros c Hc. apply one_mult_same, H. apply filter_In in Hc. apply Hc. Qed.
  Lemma tt_sum (g : S -> b64) c : (forall s, In s (sources ts) -> nnum (g s)) -> tt64 ts g c = sum64 g (supporters ts c).
  Proof. intros H. unfold tt64, sum64. f_equal. apply map_ext_in. intros s Hs. apply one_mult_same, H. apply filter_In in Hs. apply Hs. Qed.
  Lemma tr_sum (g : claim -> b64) c : (forall c, In c (claims ts) -> nnum (g c)) -> tr64 ts g c = sum64 g (rivals ts c).
  Proof. intros H. unfold tr64, sum64. f_equal. apply map_ext_in. intros c' Hc. apply one_mult_same, H. apply filter_In in Hc. apply Hc. Qed.
  Lemma by_nnum {A} (l : list A) g x : nnum (g x) -> nnum (by_1000 l g x).
  Proof. intros H. unfold by_1000. destruct (existsb _ l); [now apply nnum_div|exact H]. Qed.
  Lemma sum_nnum {A} (g : A -> b64) l : (forall x, In x l -> nnum (g x)) -> nnum (sum64 g l).
  Proof.
    intros H. unfold sum64. assert (Q : forall l (a : b64), nnum a -> (forall x, In x l -> nnum x) -> nnum (fold_left (Bplus mode_NE) l a)).
    { clear. induction l as [|x l IH]; intros a Ha H; [exact Ha|]. cbn [fold_left]. apply IH; [apply nnum_plus; [exact Ha|apply H; now left]|intros; apply H; now right]. }
    apply Q; [split; reflexivity|]. intros y Hy. apply in_map_iff in Hy. destruct Hy as (x & <- & Hx). auto.
  Qed.
  Lemma new_nnum x : fine x -> forall s, nnum (new_trust ts x s).
  Proof. intros (_ & H) s. apply sum_nnum. intros c Hc. apply H. apply filter_In in Hc. apply Hc. Qed.
  Lemma fine_step x : fine x -> fine (usums64 ts x).
  Proof.
    intros H. pose proof (new_nnum x H) as N. split; cbn [usums64 fst snd]; intros y _; apply by_nnum; [apply N|]. apply sum_nnum. intros s _. apply N.
  Qed.
  Lemma round_is x : fine x -> round (F:=F) UnboundedSums d (vecs x) = UNext (map (fst x) (sources ts) : vec F) (map (new_trust ts x) (sources ts) : vec F) (vecs (usums64 ts x)).
  Proof.
    intros H. pose proof (new_nnum x H) as N. unfold vecs at 1. cbn [round usums_upd]. rewrite (sc64 L b f ts d Hb).
    rewrite (map_ext _ (new_trust ts x)) by (intros s; apply tb_sum; apply H). rewrite (scT64 L b f ts d Hb).
    rewrite (map_ext (tt64 ts (new_trust ts x)) (fun c => sum64 (new_trust ts x) (supporters ts c))) by (intros c; apply tt_sum; intros s _; apply N).
    rewrite (rescale_by (new_trust ts x) (sources ts) (src_ne ts NE)) by (intros s _; apply N).
    rewrite (rescale_by _ (claims ts) (cl_ne ts NE)) by (intros c _; apply sum_nnum; intros s _; apply N). reflexivity.
  Qed.
  Lemma exact_count {A} (l : list A) : (Z.of_nat (length l) <= cap)%Z -> fold_left (Bplus mode_NE) (map (fun _ => Bmult mode_NE (ofZ64 1) (ofZ64 1)) l) (ofZ64 0) = how_many l.
  Proof.
    intros H. pose proof (count_exact l 0 (ofZ64 0) H zero64) as Q. cbn [Nat.add] in Q. unfold how_many. destruct l as [|x l]; [reflexivity|].
    apply (isf_pos_inj _ _ (INR (length (x :: l)))); [|rewrite INR_IZR_INZ; apply ofZ64_isf; lia|apply not_0_INR; discriminate].
    exact Q.
  Qed.
  Lemma pos_nnum x r : isf x r -> (0 < r)%R -> nnum x.
  Proof.
    intros (Fx & Ex) P. apply nnum_fin; [exact Fx|]. destruct x as [s|s| |s m e H]; try discriminate; [cbn in Ex; lra|]. destruct s; [|reflexivity]. exfalso. assert (F2R (Float radix2 (Z.neg m) e) < 0)%R by (apply F2R_lt_0; cbn; lia). cbn in Ex. lra.
  Qed.
  Lemma count_nnum {A} (l : list A) : (Z.of_nat (length l) <= cap)%Z -> nnum (how_many l).
  Proof.
    intros H. destruct l as [|x l]; [split; reflexivity|]. apply (pos_nnum _ (INR (length (x :: l)))); [|apply lt_0_INR; cbn; lia]. rewrite INR_IZR_INZ. apply ofZ64_isf; lia.
  Qed.
  Lemma filter_le {A} (q : A -> bool) l : length (filter q l) <= length l.
  Proof. clear. induction l as [|x l IH]; [apply Nat.le_refl|]. cbn [filter length]. destruct (q x); cbn [length]; lia. Qed.
  Lemma start_is p : match prior_in_doubles ts p with
    | Some g => init (F:=F) UnboundedSums p d = Some (vecs (fun _ => ofZ64 0, g)) /\ fine (fun _ => ofZ64 0, g)
    | None => p = BadPrior end.
  Proof.
    assert (Ls : forall c, (Z.of_nat (length (supporters ts c)) <= cap)%Z) by (intros c; unfold supporters; pose proof (filter_le (fun s => says ts s c) (sources ts)); lia).
    assert (Lr : forall c, (Z.of_nat (length (rivals ts c)) <= cap)%Z) by (intros c; unfold rivals; pose proof (filter_le (fun c' => beq (fst c) (fst c')) (claims ts)); lia).
    assert (Sc : source_counts (F:=F) d = map (fun c => how_many (supporters ts c)) (claims ts)).
    { unfold source_counts. rewrite (rep_ns _ _ _ R0), (ones64 L). refine (eq_trans (scT64 L b f ts d Hb _) _). apply map_ext. intros c. apply exact_count, Ls. }
    assert (Z0 : vzeros (F:=F) (num_sources d) = map (fun _ : S => ofZ64 0) (sources ts)).
    { rewrite (rep_ns _ _ _ R0). unfold vzeros, vfull. clear. induction (sources ts) as [|s l IH]; [reflexivity|]. cbn [length repeat map]. now rewrite IH. }
    assert (G : forall bel g, prior_beliefs (F:=F) p d = Some bel -> bel = map g (claims ts) -> init (F:=F) UnboundedSums p d = Some (vecs (fun _ => ofZ64 0, g)) /\ fine (fun _ => ofZ64 0, g)).
    { intros bel g E Eg. split.
      - cbn [init]. rewrite E, Z0, Eg. reflexivity.
      - split; cbn [fst snd]; [intros; split; reflexivity|]. intros c Hc. destruct (prior_low L b f ts d Hb ltac:(lia) ltac:(lia) p bel E) as (g' & Eg' & H). rewrite Eg in Eg'. pose proof (ext_in_map Eg' c Hc) as Q.
        destruct (H c Hc) as (r & Hr & Lo & _). rewrite Q. apply (pos_nnum _ r Hr). pose proof (bpow_gt_0 radix2 (-120)). lra. }
    destruct p; cbn [prior_in_doubles]; [| | | |reflexivity]; (eapply G; [cbn [prior_beliefs]; reflexivity|]).
    - unfold vfull. rewrite (rep_nc _ _ _ R0). apply (repeat_map (@lit F 1 2)).
    - rewrite Sc, (mut64 L b f ts d Hb). refine (eq_trans (zipw_map2 (@n_div F) _ _ _) _). apply map_ext. intros c.
      rewrite tr_sum by (intros c' _; apply count_nnum, Ls). reflexivity.
    - exact Sc.
    - rewrite (rep_nc _ _ _ R0), (ones64 L), (mut64 L b f ts d Hb). unfold sdivv. rewrite map_map. apply map_ext. intros c. change (n_div (n:=F)) with (Bdiv mode_NE). f_equal. exact (exact_count _ (Lr c)).
  Qed.
  Lemma scores_are x0 k : fine x0 -> scores (F:=F) UnboundedSums d (vecs x0) k = vecs (rounds64 ts x0 k) /\ fine (rounds64 ts x0 k).
  Proof.
    intros H. induction k as [|k (E & Hk)]; [auto|]. cbn [scores rounds64]. rewrite E, (round_is _ Hk). split; [reflexivity|now apply fine_step].
  Qed.

  Section Started.
    Variable x0 : @scores64 S V W.
    Hypothesis Fine : fine x0.
    Notation x := (rounds64 ts x0).
    Lemma never j : stops (F:=F) UnboundedSums d (vecs x0) j = false.
    Proof. unfold stops. destruct (scores_are x0 j Fine) as (-> & Hf). now rewrite (round_is _ Hf). Qed.
    Lemma cmp_old j : cmp1 (F:=F) UnboundedSums d (vecs x0) j = (map (fst (x j)) (sources ts) : vec F).
    Proof. unfold cmp1. destruct (scores_are x0 j Fine) as (-> & Hf). now rewrite (round_is _ Hf). Qed.
    Lemma cmp_new j : cmp2 (F:=F) UnboundedSums d (vecs x0) j = (map (new_trust ts (x j)) (sources ts) : vec F).
    Proof. unfold cmp2. destruct (scores_are x0 j Fine) as (-> & Hf). now rewrite (round_is _ Hf). Qed.
    Definition kept (j : nat) : bool := forallb (fun s => forallb (fun s' => Bool.eqb (Bltb (fst (x j) s) (fst (x j) s')) (Bltb (new_trust ts (x j) s) (new_trust ts (x j) s'))) (sources ts)) (sources ts).
    Lemma kept_true j : kept j = true <-> same_ranking64 ts (x j).
    Proof.
      unfold kept, same_ranking64. rewrite forallb_forall. split.
      - intros H s s' Hs Hs'. specialize (H s Hs). rewrite forallb_forall in H. apply Bool.eqb_prop, H, Hs'.
      - intros H s Hs. apply forallb_forall. intros s' Hs'. rewrite (H s s' Hs Hs'). apply Bool.eqb_reflx.
    Qed.
    Lemma compare_kept t n c j : compare (F:=F) (IOrd t n c) (cmp1 (F:=F) UnboundedSums d (vecs x0) j) (cmp2 (F:=F) UnboundedSums d (vecs x0) j) = (Ok tt, IOrd t (Datatypes.S n) (if kept j then Datatypes.S c else 0)).
    Proof.
      rewrite cmp_old, cmp_new. pose proof (proj2 (scores_are x0 j Fine)) as Hf. pose proof (new_nnum _ Hf) as Nn.
      destruct (ranks_agree L _ (sources ts) Few_s (fst (x j)) (new_trust ts (x j))) as (r1 & r2 & E1 & E2 & Ev); [intros s Hs; apply (proj1 Hf s Hs)|intros s Hs; apply (Nn s)|].
      change (forall x y, In x (sources ts) -> In y (sources ts) -> Bltb (fst (rounds64 ts x0 j) x) (fst (rounds64 ts x0 j) y) = Bltb (new_trust ts (rounds64 ts x0 j) x) (new_trust ts (rounds64 ts x0 j) y)) with (same_ranking64 ts (x j)) in Ev. rewrite <- kept_true in Ev.
      assert (B : vall_eq (F:=F) r1 r2 = kept j).
      { destruct (vall_eq (F:=F) r1 r2) eqn:Q; [symmetry; now apply Ev|]. destruct (kept j); [exact (proj2 Ev eq_refl)|reflexivity]. }
      etransitivity; [exact (f_equal2 (fun o1 o2 => match o1, o2 with Some r1, Some r2 => (Ok tt, IOrd (F:=F) t (Datatypes.S n) (if vall_eq (F:=F) r1 r2 then Datatypes.S c else 0)) | _, _ => (Err KeyErr, IOrd (F:=F) t (Datatypes.S n) c) end) E1 E2)|].
      cbn beta iota. now rewrite B.
    Qed.
    Lemma quiet_settled t k : quiet kept (Z.to_nat t) k <-> settled64 ts x0 t k.
    Proof.
      unfold quiet, settled64. split; intros (H1 & H2); (split; [lia|]).
      - intros j Hj Hl. apply kept_true, H2. lia.
      - intros j Hj. apply kept_true, H2; lia.
    Qed.
  End Started.

  (** C109. A run of UnboundedSums with an ordinal iterator of threshold t, in doubles: it returns if the order of the sources by trust, ties
      included, can be left unchanged by t successive rounds of the recurrence (within the steps simulated), after the first k rounds of which
      the last t did so; its scores are the dense ranks of those of the recurrence after k rounds. *)
  Theorem C109_usums_stops64 clock fuel p t n c lg g : prior_in_doubles ts p = Some g ->
    let x0 := ((fun _ => ofZ64 0), g) in
    match fst (run (F:=F) clock fuel (AObj UnboundedSums p (IOrd t n c) lg) d) with
    | Ok r => exists k, r_iterations r = Some k /\ k < fuel /\ settled64 ts x0 t k /\ (forall k', k' < k -> ~ settled64 ts x0 t k') /\
        dense_ranks (sources ts) (fun s => Some (fst (rounds64 ts x0 k) s)) (trust_of r) /\ dense_ranks (claims ts) (fun e => Some (snd (rounds64 ts x0 k) e)) (belief_of r)
    | Err e => e = OutOfFuel /\ forall k, k < fuel -> ~ settled64 ts x0 t k
    end.
  Proof.
    intros Ep x0. pose proof (start_is p) as St. rewrite Ep in St. destruct St as (E0 & Fine). fold x0 in E0, Fine.
    rewrite (run_char (F:=F) clock ts f d R0 NE), E0. cbn [reset].
    assert (Lp : forall N, match it_loop (cmp1 (F:=F) UnboundedSums d (vecs x0)) (cmp2 (F:=F) UnboundedSums d (vecs x0)) (stops (F:=F) UnboundedSums d (vecs x0)) fuel (IOrd t 0 0) 0 with
      | ((Ok tt, k), _) => k <= N -> 0 <= k < 0 + fuel /\ (quiet (kept x0) (Z.to_nat t) k \/ stops (F:=F) UnboundedSums d (vecs x0) k = true) /\ forall k', 0 <= k' < k -> ~ quiet (kept x0) (Z.to_nat t) k' /\ stops (F:=F) UnboundedSums d (vecs x0) k' = false
      | ((Err e, k), _) => e = OutOfFuel /\ (forall k', 0 <= k' < 0 + fuel -> k' <= N -> ~ quiet (kept x0) (Z.to_nat t) k' /\ stops (F:=F) UnboundedSums d (vecs x0) k' = false) \/
                         (forall k', 0 <= k' <= N -> ~ quiet (kept x0) (Z.to_nat t) k' /\ stops (F:=F) UnboundedSums d (vecs x0) k' = false) end).
    { intros N. apply (ord_loop (F:=F) _ _ _ (kept x0) N t); try (intros; lia). intros. now apply compare_kept. }
    destruct (loop_ok L b f ts d Hb ltac:(lia) ltac:(lia) NE p (vecs x0) E0 fuel t 0 0 0) as [(e & El & ->)|(k & n' & c' & El)].
    - specialize (Lp fuel). destruct (it_loop _ _ _ fuel (IOrd t 0 0) 0) as [[q k] it'] eqn:Eq. cbn [fst] in El. subst q. cbn [fst]. (split; [reflexivity|]); intros k' Hk' Q. apply quiet_settled in Q.
      destruct Lp as [(_ & Lp)|Lp]; apply (Lp k'); auto; lia.
    - specialize (Lp k). rewrite El in Lp. rewrite El. destruct (Lp (Nat.le_refl k)) as (Hk & Q1 & Q2).
      destruct (scores_are x0 k Fine) as (Es & Hf). set (xk := rounds64 ts x0 k) in *.
      destruct (ranked L (fst xk) (sources ts) _ (proj1 Hf)) as (rk1 & Er1 & D1). destruct (ranked L (snd xk) (claims ts) _ (proj2 Hf)) as (rk2 & Er2 & D2).
      assert (Ef : final (F:=F) UnboundedSums (IOrd t n' c') (scores (F:=F) UnboundedSums d (vecs x0) k) = Ok ((map (fun x => ofZ64 (Z.of_nat (rk1 x))) (sources ts) : vec F), (map (fun x => ofZ64 (Z.of_nat (rk2 x))) (claims ts) : vec F))).
      { rewrite Es. cbn [final vecs fst snd]. change (match get_ranking_vector (F:=F) (map (fst xk : S -> F) (sources ts)), get_ranking_vector (F:=F) (map (snd xk : claim -> F) (claims ts)) with Some t, Some b => Ok (t, b) | _, _ => Err KeyErr end =
          Ok ((map (fun x => ofZ64 (Z.of_nat (rk1 x))) (sources ts) : vec F), (map (fun x => ofZ64 (Z.of_nat (rk2 x))) (claims ts) : vec F))). rewrite Er1, Er2. reflexivity. }
      rewrite Ef. cbn [fst snd]. exists k. split; [reflexivity|]. split; [lia|]. split; [|split; [|]].
      + apply quiet_settled. destruct Q1 as [Q1|Q1]; [exact Q1|]. rewrite never in Q1 by exact Fine. discriminate.
      + intros k' Hk' Q. apply quiet_settled in Q. apply (Q2 k'); [lia|exact Q].
      + assert (Rr : reports ts (Result (tdict (F:=F) ts (map (fun x => ofZ64 (Z.of_nat (rk1 x))) (sources ts))) (bdict (F:=F) ts (map (fun x => ofZ64 (Z.of_nat (rk2 x))) (claims ts))) (n_sub (n:=F) (clock 1%nat) (clock 0%nat)) (Some k)) (fun x => ofZ64 (Z.of_nat (rk1 x))) (fun x => ofZ64 (Z.of_nat (rk2 x)))) by (apply (reports64 L); reflexivity).
        split.
        * apply (dense_intro L (fst xk) (sources ts) rk1); [intros s Hs; apply (proj1 Hf s Hs)|exact D1|reflexivity|]. intros s Hs. exact (trust_reported ts _ _ _ s Rr Hs).
        * apply (dense_intro L (snd xk) (claims ts) rk2); [intros s Hs; apply (proj2 Hf s Hs)|exact D2|reflexivity|]. intros s Hs. exact (belief_reported ts _ _ _ s Rr Hs).
  Qed.
End C109.

(** Source 1 makes two claims, source 2 one: the first round separates them, and the next three change nothing, so threshold 3 means 4 rounds;
    two steps are not enough for the simulation. *)
Module UsumsStop64Examples.
  Notation F := (B64 FloatExamples.lm).
  Definition ts0 : list (nat * nat * nat) := [(1, 0, 5); (1, 1, 7); (2, 0, 6)].
  Definition check : bool := match build (F:=F) false None ts0 with
    | Ok d => match fst (run (F:=F) (fun _ => ofZ64 0) 10 (AObj UnboundedSums COUNT (IOrd 3 0 0) None) d) with Ok r => beq (r_iterations r) (Some 4) | Err _ => false end
    | Err _ => false end.
  Example checked : check = true. Proof. vm_cast_no_check (eq_refl true). Qed.
  Example four : exists g, prior_in_doubles ts0 COUNT = Some g /\ settled64 ts0 ((fun _ => ofZ64 0), g) 3 4 /\ ~ settled64 ts0 ((fun _ => ofZ64 0), g) 3 3.
  Proof.
    destruct (FloatExamples.strict_builds64 ts0) as [d E]; [unfold ts0, sv_pairs; cbn; repeat constructor; cbn; intuition congruence|].
    pose proof checked as C. unfold check in C. rewrite E in C. eexists. split; [reflexivity|].
    pose proof (C109_usums_stops64 FloatExamples.lm false None ts0 d E ltac:(cbn; lia) ltac:(cbn; lia) ltac:(discriminate) (fun _ => ofZ64 0) 10 COUNT 3 0 0 None _ eq_refl) as Q. cbv zeta in Q.
    destruct (fst (run (F:=F) (fun _ => ofZ64 0) 10 (AObj UnboundedSums COUNT (IOrd 3 0 0) None) d)) as [r|e]; [|discriminate C]. apply (proj1 (beq_true _ _)) in C.
    destruct Q as (k & Ek & _ & S1 & S2 & _). rewrite C in Ek. injection Ek as <-. split; [exact S1|]. apply S2. lia.
  Qed.
  Example not_in_two : exists d, build (F:=F) false None ts0 = Ok d /\ fst (run (F:=F) (fun _ => ofZ64 0) 2 (AObj UnboundedSums COUNT (IOrd 3 0 0) None) d) = Err OutOfFuel.
  Proof.
    destruct (FloatExamples.strict_builds64 ts0) as [d E]; [unfold ts0, sv_pairs; cbn; repeat constructor; cbn; intuition congruence|]. exists d. split; [exact E|].
    pose proof (C109_usums_stops64 FloatExamples.lm false None ts0 d E ltac:(cbn; lia) ltac:(cbn; lia) ltac:(discriminate) (fun _ => ofZ64 0) 2 COUNT 3 0 0 None _ eq_refl) as Q. cbv zeta in Q.
    destruct (fst (run (F:=F) (fun _ => ofZ64 0) 2 (AObj UnboundedSums COUNT (IOrd 3 0 0) None) d)) as [r|e]; [|destruct Q as (-> & _); exact eq_refl].
    exfalso. destruct Q as (k & _ & Hk & (Hs & _) & _). lia.
  Qed.
End UsumsStop64Examples.
