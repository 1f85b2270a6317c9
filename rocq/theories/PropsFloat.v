(** C34: Sums (and majority voting) in IEEE double arithmetic, exactly as computed, rounding errors included. *)
From Coq Require Import Reals Lra.
From Flocq Require Import Core IEEE754.BinarySingleNaN.
From Verif Require Import Base Num Sparse Spec SpecAlg Dataset DatasetProofs DatasetRep Iterators Algorithms Driver Rounds
  AlgRep PropsData PropsIter PropsRun PropsAlg Float.
Local Open Scope R_scope.

(** the double [x] is a number (neither NaN nor infinite) whose value lies in [lo, hi] *)
Definition double_in (lo hi : R) (x : b64) : Prop := is_finite x = true /\ lo <= B2R64 x <= hi.
Lemma within_double lo hi x : within lo hi x <-> double_in lo hi x.
Proof. split; [intros (r & [F <-] & H); now split|intros [F H]; exists (B2R64 x); repeat split; tauto]. Qed.

Section PropsFloat.
  Context {S V W : Type} {ES : Eqb S} {EV : Eqb V} {EW : Eqb W}.
  Variable L : libm.
  Notation F := (B64 L).
  Notation data := (dataset S V W F).
  Notation claim := (V * W)%type.
  Notation result := (result S V W b64).
  Notation cap := (2 ^ 53)%Z.

  Section OneData.
    Variables (b : bool) (f : option (V -> W -> W -> option F)) (ts : list (S * V * W)) (d : data).
    Hypothesis Hb : build (F:=F) b f ts = Ok d.
    Hypothesis Small_s : (Z.of_nat (length (sources ts)) <= cap)%Z.
    Hypothesis Small_c : (Z.of_nat (length (claims ts)) <= cap)%Z.
    Let R0 : ds_rep (F:=F) ts f d := build_rep _ _ _ _ Hb.

    Lemma filter_small {A} (p : A -> bool) l : (Z.of_nat (length l) <= cap)%Z -> (Z.of_nat (length (filter p l)) <= cap)%Z.
    Proof. intros H. assert ((length (filter p l) <= length l)%nat) by (induction l; cbn in *; [lia|destruct (p a); cbn; lia]). lia. Qed.

    (** one row of a matrix product with 0/1 matrices *)
    Lemma row64 {A} (e : Z) (g : A -> b64) (l : list A) : (-1074 <= e <= 800)%Z -> (Z.of_nat (length l) <= cap)%Z ->
      (forall x, In x l -> within 0 (bpow radix2 e) (g x)) ->
      exists r, isf (fold_left (Bplus mode_NE) (map (fun x => Bmult mode_NE (ofZ64 1) (g x)) l) (ofZ64 0)) r /\
        0 <= r <= INR (length l) * bpow radix2 e /\ (forall x q, In x l -> isf (g x) q -> q <= r).
    Proof.
      intros He Hl Hg.
      destruct (sum64 e (map (fun x => Bmult mode_NE (ofZ64 1) (g x)) l) 0 (ofZ64 0) 0) as (r & H1 & H2 & H3).
      - lia.
      - rewrite map_length. exact Hl.
      - exact zero64.
      - cbn. lra.
      - intros y Hy. apply in_map_iff in Hy. destruct Hy as (x & <- & Hx). destruct (Hg x Hx) as (q & Hq & Hq'). exists q. split; [|exact Hq'].
        apply one_mul64; [exact Hq|lra].
      - exists r. rewrite map_length in H2. split; [exact H1|]. split; [exact H2|]. intros x q Hx Hq.
        destruct (Hg x Hx) as (q' & Hq' & Hq2). assert (q = q') by (eapply isf_fun; eauto). subst q'. apply (H3 (Bmult mode_NE (ofZ64 1) (g x))).
        + apply in_map_iff. eauto.
        + apply one_mul64; [exact Hq|lra].
    Qed.
    Lemma INR_cap (n : nat) e : (Z.of_nat n <= cap)%Z -> INR n * bpow radix2 e <= bpow radix2 (e + 53).
    Proof.
      intros H. rewrite Z.add_comm, bpow_plus. apply Rmult_le_compat_r; [apply bpow_ge_0|]. rewrite INR_IZR_INZ. apply (IZR_le _ cap). exact H.
    Qed.

    (** total belief of a source, total trust of a claim, in doubles *)
    Definition tb64 (g : claim -> b64) (s : S) : b64 :=
      fold_left (Bplus mode_NE) (map (fun c => Bmult mode_NE (ofZ64 1) (g c)) (claims_of ts s)) (ofZ64 0).
    Definition tt64 (g : S -> b64) (c : claim) : b64 :=
      fold_left (Bplus mode_NE) (map (fun c => Bmult mode_NE (ofZ64 1) (g c)) (supporters ts c)) (ofZ64 0).
    Definition tr64 (g : claim -> b64) (c : claim) : b64 :=
      fold_left (Bplus mode_NE) (map (fun c => Bmult mode_NE (ofZ64 1) (g c)) (rivals ts c)) (ofZ64 0).
    Lemma sc64 g : mv (F:=F) (sc d) (map g (claims ts)) = map (tb64 g) (sources ts).
    Proof. rewrite (mv_rep (F:=F) _ _ _ _ _ g (rep_sc _ _ _ R0)). reflexivity. Qed.
    Lemma scT64 g : mv (F:=F) (mtr (sc d)) (map g (sources ts)) = map (tt64 g) (claims ts).
    Proof. rewrite (mv_rep (F:=F) _ _ _ _ _ g (mrep_tr _ _ _ _ _ (rep_sc _ _ _ R0))). reflexivity. Qed.
    Lemma mut64 g : mv (F:=F) (mut_ex d) (map g (claims ts)) = map (tr64 g) (claims ts).
    Proof. rewrite (mv_rep (F:=F) _ _ _ _ _ g (rep_mut _ _ _ R0)). reflexivity. Qed.

    (** the maximum of a vector and division by it *)
    Lemma norm64 {A} (g : A -> b64) (l : list A) hi : l <> [] -> (forall x, In x l -> within 0 hi (g x)) -> (exists x q, In x l /\ isf (g x) q /\ 0 < q) ->
      exists m, pymax (F:=F) (map g l) = Some m /\ npmax (F:=F) (map g l) = Some m /\
        (forall x, In x l -> within 0 1 (Bdiv mode_NE (g x) m)) /\ (exists x, In x l /\ Bdiv mode_NE (g x) m = ofZ64 1).
    Proof.
      intros Hl Hg (x0 & q0 & Hx0 & Hq0 & Hp0).
      assert (Fn : forall y, In y (map g l) -> exists q, isf y q).
      { intros y Hy. apply in_map_iff in Hy. destruct Hy as (x & <- & Hx). destruct (Hg x Hx) as (q & Hq & _). eauto. }
      destruct (pymax64 L (map g l)) as (m & q & E & Hm & Hin & Hall); [destruct l; cbn; congruence|exact Fn|].
      assert (Pq : 0 < q) by (pose proof (Hall (g x0) q0 (in_map g l x0 Hx0) Hq0); lra).
      exists m. split; [exact E|]. split; [rewrite (npmax64 L _ Fn); exact E|]. split.
      - intros x Hx. destruct (Hg x Hx) as (r & Hr & Hr'). pose proof (Hall (g x) r (in_map g l x Hx) Hr).
        destruct (div_max64 (g x) m r q Hr Hm ltac:(lra) Pq) as (z & Hz & Hz' & _). exists z. auto.
      - apply in_map_iff in Hin. destruct Hin as (x & Ex & Hx). exists x. split; [exact Hx|]. rewrite Ex.
        destruct (div_max64 m m q q Hm Hm ltac:(lra) Pq) as (z & Hz & Hz' & H1). rewrite (H1 eq_refl) in Hz.
        apply (isf_pos_inj _ _ 1); [exact Hz|exact one64|lra].
    Qed.

    (** beliefs the loop may start a round with *)
    Definition ready (g : claim -> b64) : Prop :=
      (forall c, In c (claims ts) -> within 0 (bpow radix2 53) (g c)) /\ (exists c q, In c (claims ts) /\ isf (g c) q /\ 0 < q).
    (** scores after a round *)
    Definition normalised (t : S -> b64) (g : claim -> b64) : Prop :=
      (forall s, In s (sources ts) -> within 0 1 (t s)) /\ (forall c, In c (claims ts) -> within 0 1 (g c)) /\
      (exists s, In s (sources ts) /\ t s = ofZ64 1) /\ (exists c, In c (claims ts) /\ g c = ofZ64 1).
    Lemma normalised_ready t g : normalised t g -> ready g.
    Proof.
      intros (_ & H & _ & (c & Hc & E)). split.
      - intros c' Hc'. destruct (H c' Hc') as (r & Hr & Hr'). exists r. split; [exact Hr|]. split; [lra|]. apply Rle_trans with 1; [lra|].
        change 1 with (bpow radix2 0). apply bpow_le. lia.
      - exists c, 1. split; [exact Hc|]. rewrite E. split; [exact one64|lra].
    Qed.
    Lemma sums_round64 (NE : ts <> []) (t0 : vec F) g : ready g ->
      exists t g', normalised t g' /\ round (F:=F) Sums d (t0, map g (claims ts)) = UNext t0 (map t (sources ts)) (map t (sources ts), map g' (claims ts)).
    Proof.
      intros [Hg (c0 & q0 & Hc0 & Hq0 & Pq0)].
      assert (B1 : forall s, In s (sources ts) -> exists r, isf (tb64 g s) r /\ 0 <= r <= bpow radix2 106 /\ (forall c q, In c (claims_of ts s) -> isf (g c) q -> q <= r)).
      { intros s Hs. destruct (row64 53 g (claims_of ts s)) as (r & H1 & H2 & H3); [lia|now apply filter_small|intros c Hc; apply Hg; unfold claims_of in Hc; apply filter_In in Hc; tauto|].
        exists r. split; [exact H1|]. split; [|exact H3]. split; [lra|]. eapply Rle_trans; [apply H2|]. apply (INR_cap _ 53). now apply filter_small. }
      assert (B2 : forall c, In c (claims ts) -> exists r, isf (tt64 (tb64 g) c) r /\ 0 <= r <= bpow radix2 159 /\ (forall s q, In s (supporters ts c) -> isf (tb64 g s) q -> q <= r)).
      { intros c Hc. destruct (row64 106 (tb64 g) (supporters ts c)) as (r & H1 & H2 & H3); [lia|now apply filter_small| |].
        - intros s Hs. unfold supporters in Hs. apply filter_In in Hs. destruct (B1 s (proj1 Hs)) as (r & Hr & Hr' & _). exists r. auto.
        - exists r. split; [exact H1|]. split; [|exact H3]. split; [lra|]. eapply Rle_trans; [apply H2|]. apply (INR_cap _ 106). now apply filter_small. }
      assert (Hc0' := Hc0). apply claims_In in Hc0'. destruct Hc0' as (s0 & Hs0). pose proof (says_source _ _ _ Hs0) as Hs0'.
      destruct (B1 s0 Hs0') as (r0 & Hr0 & _ & Hmax0).
      assert (P0 : 0 < r0).
      { assert (In c0 (claims_of ts s0)) by (unfold claims_of; apply filter_In; auto). pose proof (Hmax0 c0 q0 H Hq0). lra. }
      destruct (B2 c0 Hc0) as (r1 & Hr1 & _ & Hmax1).
      assert (P1 : 0 < r1).
      { assert (In s0 (supporters ts c0)) by (unfold supporters; apply filter_In; auto). pose proof (Hmax1 s0 r0 H Hr0). lra. }
      destruct (norm64 (tb64 g) (sources ts) (bpow radix2 106)) as (m & Em & _ & Hm1 & Hm2).
      { exact (src_ne ts NE). } { intros s Hs. destruct (B1 s Hs) as (r & Hr & Hr' & _). exists r. auto. } { eauto 8. }
      destruct (norm64 (tt64 (tb64 g)) (claims ts) (bpow radix2 159)) as (m' & Em' & _ & Hm1' & Hm2').
      { exact (cl_ne ts NE). } { intros s Hs. destruct (B2 s Hs) as (r & Hr & Hr' & _). exists r. auto. } { eauto 8. }
      exists (fun s => Bdiv mode_NE (tb64 g s) m), (fun c => Bdiv mode_NE (tt64 (tb64 g) c) m').
      split; [repeat split; assumption|].
      cbn [round]. unfold sums_upd. rewrite sc64, scT64, Em, Em'. unfold vdivs. rewrite !map_map. reflexivity.
    Qed.

    (** ** priors *)
    Lemma ones64 {A} (l : list A) : vones (F:=F) (length l) = map (fun _ => ofZ64 1) l.
    Proof. apply (repeat_map (ofZ64 1)). Qed.
    Lemma count64 {A} (l : list A) : (Z.of_nat (length l) <= cap)%Z -> l <> [] ->
      exists r, isf (fold_left (Bplus mode_NE) (map (fun _ => Bmult mode_NE (ofZ64 1) (ofZ64 1)) l) (ofZ64 0)) r /\ 1 <= r <= bpow radix2 53.
    Proof.
      intros Hl Hn. destruct (row64 0 (fun _ => ofZ64 1) l) as (r & H1 & H2 & H3); [lia|exact Hl| |].
      - intros x _. exists 1. split; [exact one64|]. change (bpow radix2 0) with 1. lra.
      - exists r. split; [exact H1|]. split.
        + destruct l as [|x l]; [congruence|]. apply (H3 x); [now left|exact one64].
        + eapply Rle_trans; [apply H2|]. now apply (INR_cap _ 0).
    Qed.
    Lemma prior64 p bel : prior_beliefs (F:=F) p d = Some bel -> exists g, bel = map g (claims ts) /\ (ts <> [] -> ready g).
    Proof.
      assert (Sc : source_counts (F:=F) d = map (tt64 (fun _ => ofZ64 1)) (claims ts)).
      { unfold source_counts. rewrite (rep_ns _ _ _ R0), ones64. apply scT64. }
      assert (Hcnt : forall c, In c (claims ts) -> exists r, isf (tt64 (fun _ => ofZ64 1) c) r /\ 1 <= r <= bpow radix2 53).
      { intros c Hc. apply count64; [now apply filter_small|]. destruct (supporters_ne ts c Hc) as [s Hs]. destruct (supporters ts c); [destruct Hs|discriminate]. }
      assert (Riv : forall c, In c (claims ts) -> In c (rivals ts c)) by (intros c Hc; now apply rivals_self).
      assert (RivC : forall c c', In c' (rivals ts c) -> In c' (claims ts)) by (intros c c' Hc; unfold rivals in Hc; apply filter_In in Hc; tauto).
      assert (Rdy : forall g, (forall c, In c (claims ts) -> exists r, isf (g c) r /\ 0 < r <= bpow radix2 53) -> ts <> [] -> ready g).
      { intros g H NE. split.
        - intros c Hc. destruct (H c Hc) as (r & Hr & Hr'). exists r. split; [exact Hr|lra].
        - destruct (claims ts) as [|c l] eqn:E; [exfalso; now apply (cl_ne ts NE)|]. destruct (H c (or_introl eq_refl)) as (r & Hr & Hr').
          exists c, r. cbn. split; [auto|]. split; [exact Hr|lra]. }
      assert (One : 1 <= bpow radix2 53) by (change 1 with (bpow radix2 0); apply bpow_le; lia).
      destruct p; cbn [prior_beliefs]; intros [= <-].
      - exists (fun _ => @lit F 1 2). split; [unfold vfull; rewrite (rep_nc _ _ _ R0); apply (repeat_map (@lit F 1 2))|].
        apply Rdy. intros c _. assert (H2 : isf (ofZ64 2) 2) by (apply (ofZ64_isf 2); lia).
        destruct (div_pos64 (ofZ64 1) (ofZ64 2) 1 2 one64 H2 ltac:(lra)) as (r & Hr & Hr').
        { apply Rle_trans with (bpow radix2 1); [right; reflexivity|apply bpow_le; lia]. }
        exists r. split; [exact Hr|lra].
      - rewrite Sc, mut64. exists (fun c => Bdiv mode_NE (tt64 (fun _ => ofZ64 1) c) (tr64 (tt64 (fun _ => ofZ64 1)) c)).
        split; [unfold vdiv; apply (zipw_map2 (@n_div F))|]. apply Rdy. intros c Hc. destruct (Hcnt c Hc) as (r & Hr & Hr').
        destruct (row64 53 (tt64 (fun _ => ofZ64 1)) (rivals ts c)) as (r2 & H1 & H2 & H3); [lia|now apply filter_small| |].
        { intros c' Hc'. destruct (Hcnt c' (RivC c c' Hc')) as (r' & G & G'). exists r'. split; [exact G|lra]. }
        pose proof (H3 c r (Riv c Hc) Hr).
        destruct (div_pos64 _ _ r r2 Hr H1 ltac:(lra)) as (z & Hz & Hz').
        { eapply Rle_trans; [apply H2|]. eapply Rle_trans; [apply (INR_cap _ 53); now apply filter_small|apply bpow_le; lia]. }
        exists z. split; [exact Hz|lra].
      - rewrite Sc. exists (tt64 (fun _ => ofZ64 1)). split; [reflexivity|]. apply Rdy. intros c Hc. destruct (Hcnt c Hc) as (r & Hr & Hr'). exists r. split; [exact Hr|lra].
      - rewrite (rep_nc _ _ _ R0), ones64, mut64. exists (fun c => Bdiv mode_NE (ofZ64 1) (tr64 (fun _ => ofZ64 1) c)).
        split; [unfold sdivv; rewrite map_map; reflexivity|]. apply Rdy. intros c Hc.
        destruct (count64 (rivals ts c)) as (r & Hr & Hr'); [now apply filter_small|intros E; pose proof (Riv c Hc) as G; rewrite E in G; destruct G|].
        destruct (div_pos64 _ _ 1 r one64 Hr ltac:(lra)) as (z & Hz & Hz').
        { eapply Rle_trans; [apply Hr'|apply bpow_le; lia]. }
        exists z. split; [exact Hz|lra].
    Qed.

    Lemma scores64 (NE : ts <> []) p x0 : init (F:=F) Sums p d = Some x0 -> forall k,
      exists t g, scores (F:=F) Sums d x0 k = (t, map g (claims ts)) /\ ready g /\
        (k <> 0%nat -> exists t', t = map t' (sources ts) /\ normalised t' g).
    Proof.
      intros E0. cbn [init] in E0. destruct (prior_beliefs p d) as [bel|] eqn:Ep; [|discriminate]. cbn in E0. injection E0 as E0'.
      destruct (prior64 p bel Ep) as (g0 & Eg & Hr0). subst bel. induction k as [|k (t & g & E & Hg & _)].
      - exists (vzeros (F:=F) (num_sources d)), g0. cbn [scores]. split; [symmetry; exact E0'|]. split; [now apply Hr0|congruence].
      - destruct (sums_round64 NE t g Hg) as (t' & g' & Hn & Er).
        assert (Er2 : round Sums d (scores Sums d x0 k) = UNext t (map t' (sources ts)) (map t' (sources ts), map g' (claims ts))) by (rewrite E; exact Er).
        cbn [scores]. rewrite Er2.
        exists (map t' (sources ts)), g'. split; [reflexivity|]. split; [eapply normalised_ready; eauto|]. intros _. exists t'. auto.
    Qed.

    Lemma reports64 (r : result) t g : r_trust r = tdict (F:=F) ts (map t (sources ts)) -> r_belief r = bdict (F:=F) ts (map g (claims ts)) -> reports ts r t g.
    Proof.
      intros E1 E2. apply reports_intro.
      - rewrite E1. unfold tdict. apply map_ext_in. intros s Hs. f_equal. apply nth_error_nth_eq. rewrite nth_error_map. now rewrite (nth_error_pos _ _ Hs).
      - rewrite E2. unfold bdict, beliefs_of. apply map_ext. intros x. f_equal. unfold scores_of. apply map_ext_in. intros c Hc. f_equal.
        apply filter_In in Hc. apply nth_error_nth_eq. rewrite nth_error_map. now rewrite (nth_error_pos _ _ (proj1 Hc)).
    Qed.

    (** all scores of a result are numbers in [0,1], the largest trust and the largest belief are exactly 1.0 *)
    Definition scores_normal (r : result) : Prop :=
      (forall s v, trust_of r s = Some v -> double_in 0 1 v) /\ (forall c v, belief_of r c = Some v -> double_in 0 1 v) /\
      (exists s, trust_of r s = Some (ofZ64 1)) /\ (exists c, belief_of r c = Some (ofZ64 1)).
    Lemma normal_intro r t g : reports ts r t g -> normalised t g -> scores_normal r.
    Proof.
      intros (Ra & Rb & _) (N1 & N2 & (s & Hs & Es) & (c & Hc & Ec)). split; [|split; [|split]].
      - intros s' v. rewrite Ra. destruct (mem s' (sources ts)) eqn:E; [|discriminate]. intros [= <-]. apply mem_In in E. apply within_double. auto.
      - intros c' v. rewrite Rb. destruct (mem c' (claims ts)) eqn:E; [|discriminate]. intros [= <-]. apply mem_In in E. apply within_double. auto.
      - exists s. rewrite Ra. apply mem_In in Hs. rewrite Hs. now f_equal.
      - exists c. rewrite Rb. apply mem_In in Hc. rewrite Hc. now f_equal.
    Qed.

    Theorem C34_sums_float clock fuel p it lg r o' k : run (F:=F) clock fuel (AObj Sums p it lg) d = (Ok r, o') ->
      r_iterations r = Some k -> k <> 0%nat -> scores_normal r.
    Proof.
      intros H Hk Hk0. apply (run_cases b f ts d Hb) in H. destruct H as (NE & x0 & k' & it' & E0 & El & x & Ef & ->).
      cbn in Hk. injection Hk as ->. destruct (scores64 NE p x0 E0 k) as (t & g & E & _ & Hn). destruct (Hn Hk0) as (t' & -> & N).
      apply (final_ok Sums it' _ x) in Ef; [|discriminate]. rewrite E in Ef. subst x. cbn [fst snd].
      apply (normal_intro _ t' g); [|exact N]. apply reports64; reflexivity.
    Qed.
    (** every partial result yielded by run_iter after the first (which shows the starting values) is normal as well *)
    Theorem C34_sums_float_partial_results clock fuel p it lg l o' j r : run_iter (F:=F) clock fuel (AObj Sums p it lg) d = (Ok l, o') ->
      nth_error l j = Some r -> j <> 0%nat -> scores_normal r.
    Proof.
      intros H Hj Hj0. destruct (list_eq_dec (fun t t' => eq_dec_of t t') ts []) as [E|NE].
      { unfold run_iter in H. assert (num_claims d = 0%nat) by (rewrite (rep_nc _ _ _ R0), E; reflexivity). rewrite H0 in H. discriminate. }
      rewrite (run_iter_char clock ts f d R0 NE) in H. destruct (init Sums p d) as [x0|] eqn:E0; [|discriminate].
      destruct (it_loop _ _ _ fuel (reset it) 0) as [[q k] it'] eqn:El. destruct q as [[]|e]; [|discriminate]. cbn [final] in H. injection H as <- _.
      unfold partial_results, initial_log in Hj. cbn [logs_initial app length] in Hj. destruct j as [|j]; [congruence|]. cbn [nth_error] in Hj.
      rewrite nth_error_map in Hj. destruct (nth_error (seq 1 k) j) as [i|] eqn:Ei; [|discriminate]. cbn in Hj. injection Hj as <-.
      assert (Hi : i <> 0%nat) by (apply nth_error_In, in_seq in Ei; lia).
      destruct (scores64 NE p x0 E0 i) as (t & g & E & _ & Hn). destruct (Hn Hi) as (t' & -> & N).
      apply (normal_intro _ t' g); [|exact N].
      apply reports64; [exact (f_equal (fun y => tdict (F:=F) ts (fst y)) E)|exact (f_equal (fun y => bdict (F:=F) ts (snd y)) E)].
    Qed.
    (** Sums with a fixed number n >= 1 of rounds returns such scores *)
    Theorem C34_sums_float_returns clock fuel p n st lg : ts <> [] -> p <> BadPrior -> (1 <= n)%Z -> (Z.to_nat n < fuel)%nat ->
      exists r, fst (run (F:=F) clock fuel (AObj Sums p (IFixed n st) lg) d) = Ok r /\ r_iterations r = Some (Z.to_nat n) /\ scores_normal r.
    Proof.
      intros NE Hp Hn Hf. destruct (C28_fixed_returns b f ts d Hb clock fuel Sums p n st lg NE) as (r & Hr); [discriminate|exact Hp|exact Hf|].
      destruct (run clock fuel (AObj Sums p (IFixed n st) lg) d) as [q o'] eqn:E. cbn in Hr. subst q. exists r. split; [reflexivity|].
      assert (Hk : r_iterations r = Some (Z.to_nat n)).
      { pose proof E as E'. apply (run_cases b f ts d Hb) in E'. destruct E' as (_ & x0 & k & it' & E0 & El & x & Ef & ->). cbn. f_equal.
        assert (NS : forall j, stops (F:=F) Sums d x0 j = false).
        { intros j. unfold stops. destruct (scores64 NE p x0 E0 j) as (t & g & Ej & Hg & _). rewrite Ej.
          destruct (sums_round64 NE t g Hg) as (t' & g' & _ & Er). etransitivity; [|exact (f_equal (fun u => match u with UBreak => true | _ => false end) Er)]. reflexivity. }
        assert (G : forall fuel j, (Z.of_nat j <= Z.max 0 n)%Z -> it_loop (F:=F) (cmp1 Sums d x0) (cmp2 Sums d x0) (stops Sums d x0) fuel (IFixed n j) j = ((Ok tt, k), it') ->
         k = Z.to_nat n).
        { clear -NS. induction fuel as [|fu IH]; intros j Hj H; [discriminate|]. cbn [it_loop finished] in H.
          destruct (Z.leb_spec n (Z.of_nat j)); [injection H as <- _; lia|]. rewrite NS in H. cbn [compare] in H. apply IH in H; [exact H|lia]. }
        apply (G fuel 0%nat); [lia|exact El]. }
      split; [exact Hk|]. eapply C34_sums_float; [exact E|exact Hk|lia].
    Qed.
    (** majority voting: beliefs are numbers in [0,1], the most popular claim has belief exactly 1.0 *)
    Theorem C34_voting_float clock : ts <> [] -> exists r, voting_run (F:=F) clock d = Ok r /\ scores_normal r.
    Proof.
      intros NE. unfold voting_run. destruct (Nat.eqb_spec (num_claims d) 0) as [Z|_]; [now apply (nc_pos ts f d R0 NE) in Z|].
      assert (Sc : source_counts (F:=F) d = map (tt64 (fun _ => ofZ64 1)) (claims ts)).
      { unfold source_counts. rewrite (rep_ns _ _ _ R0), ones64. apply scT64. }
      assert (Hcnt : forall c, In c (claims ts) -> exists r, isf (tt64 (fun _ => ofZ64 1) c) r /\ 1 <= r <= bpow radix2 53).
      { intros c Hc. apply count64; [now apply filter_small|]. destruct (supporters_ne ts c Hc) as [s Hs]. destruct (supporters ts c); [destruct Hs|discriminate]. }
      destruct (norm64 (tt64 (fun _ => ofZ64 1)) (claims ts) (bpow radix2 53)) as (m & _ & Em & Hm1 & Hm2).
      { exact (cl_ne ts NE). } { intros c Hc. destruct (Hcnt c Hc) as (r & Hr & Hr'). exists r. split; [exact Hr|lra]. }
      { destruct (claims ts) as [|c l] eqn:E; [exfalso; now apply (cl_ne ts NE)|]. destruct (Hcnt c (or_introl eq_refl)) as (r & Hr & Hr'). exists c, r. cbn. repeat split; auto; try apply Hr. lra. }
      rewrite Sc, Em. unfold vdivs. rewrite map_map.
      assert (Es : repeat (@n_ofZ F 1) (num_sources d) = map (fun _ => ofZ64 1) (sources ts)) by (rewrite (rep_ns _ _ _ R0); apply ones64).
      rewrite Es. rewrite (trust_dict_vec ts f d R0), (belief_dict_vec ts f d R0).
      - eexists. split; [reflexivity|]. eapply normal_intro; [apply reports64; reflexivity|]. split; [|split; [|split]].
        + intros s _. exists 1. split; [exact one64|lra].
        + exact Hm1.
        + destruct (sources ts) as [|s l] eqn:E; [exfalso; now apply (src_ne ts NE)|]. exists s. cbn. auto.
        + exact Hm2.
      - rewrite map_length. symmetry. apply (rep_nc _ _ _ R0).
      - rewrite map_length. symmetry. apply (rep_ns _ _ _ R0).
    Qed.
  End OneData.
End PropsFloat.

(** A concrete dataset, run in doubles: three rounds of Sums and the bits of the scores. *)
Module FloatExamples.
  Definition lm : libm := Libm (fun x => x) (fun x => x) (fun x _ => x).
  Definition ts : list (nat * nat * nat) :=
    [(1,1,10); (1,2,20); (2,1,10); (2,2,21); (2,3,30); (3,1,11); (3,3,31)]%nat.
  Lemma strict_builds64 (l : list (nat * nat * nat)) : NoDup (sv_pairs l) -> exists d : dataset nat nat nat (B64 lm), build false None l = Ok d.
  Proof.
    intros ND. destruct (build_strict (F:=B64 lm) None l) as [(_ & _ & d & E & _)|[(_ & N & _)|(s & x & H & _)]].
    - exists d. exact E.
    - exfalso. apply N. intros c c' q _ _ H. unfold imp_val in H. destruct (_ && _)%bool; discriminate.
    - exfalso. exact (first_repeat_not_NoDup _ _ _ H ND).
  Qed.
  Example built : exists d, build (F:=B64 lm) false None ts = Ok d.
  Proof. apply strict_builds64. unfold ts, sv_pairs; cbn. repeat constructor; cbn; intuition congruence. Qed.
  Example small : (Z.of_nat (length (sources ts)) <= 2 ^ 53)%Z /\ (Z.of_nat (length (claims ts)) <= 2 ^ 53)%Z.
  Proof. vm_compute. split; discriminate. Qed.
  Definition bits (x : b64) := B2SF x.
  Definition shown := match build (F:=B64 lm) false None ts with Err _ => None | Ok d =>
    match fst (run (F:=B64 lm) (fun _ => ofZ64 0) 10 (AObj Sums FIXED (IFixed 3 0) None) d) with
    | Ok r => Some (map (fun p => bits (snd p)) (r_trust r), map (fun p => map (fun q => bits (snd q)) (snd p)) (r_belief r))
    | Err _ => None end end.
  (* the second source has trust exactly 2^52 * 2^-52 = 1.0 *)
  Example runs : match shown with Some (t, _) => nth_error t 1 = Some (SpecFloat.S754_finite false 4503599627370496 (-52)) /\ length t = 3%nat | None => False end.
  Proof. vm_compute. split; reflexivity. Qed.
End FloatExamples.
