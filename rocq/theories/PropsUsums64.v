(** C100: UnboundedSums in IEEE doubles. *)
From Coq Require Import Reals Lra.
From Flocq Require Import Core IEEE754.BinarySingleNaN.
From Verif Require Import Base Num Sparse Spec SpecAlg Dataset DatasetProofs DatasetRep Iterators Ranking Algorithms Driver Rounds
  AlgRep AlgRounds AlgTF AlgPack PropsData PropsIter PropsRun PropsAlg PropsOrd PropsCoherence Local PropsConv PropsCopies Float PropsFloat PropsAvlog64 PropsInvestNaN.

(** neither NaN nor negative; +inf is allowed *)
Definition nnum (x : b64) : Prop := is_nan x = false /\ Bsign x = false.
Lemma nnum_SF (x y : b64) : B2SF x = B2SF y -> nnum y -> nnum x.
Proof. intros H. apply B2SF_inj in H. now subst. Qed.
Lemma nnum_inf (x : b64) : B2SF x = SpecFloat.S754_infinity false -> nnum x.
Proof. intros H. apply (nnum_SF x (B754_infinity false)); [exact H|]. split; reflexivity. Qed.
Lemma nnum_fin (x : b64) : is_finite x = true -> Bsign x = false -> nnum x.
Proof. intros H1 H2. split; [|exact H2]. destruct x; try reflexivity; discriminate. Qed.
Lemma nnum_R (x : b64) : is_finite x = true -> Bsign x = false -> (0 <= B2R x)%R.
Proof.
  destruct x as [s|s| |s m e H]; cbn; intros H1 H2; try discriminate; [lra|]. subst s. apply F2R_ge_0. cbn. lia.
Qed.
Lemma nnum_plus (x y : b64) : nnum x -> nnum y -> nnum (Bplus mode_NE x y).
Proof.
  intros (Nx & Sx) (Ny & Sy). destruct (is_finite x) eqn:Fx.
  2: { destruct x as [s|s| |s m e H]; try discriminate. cbn in Sx. subst s. destruct y as [s|s| |s m e H]; try discriminate; cbn in Sy; subst s; split; reflexivity. }
  destruct (is_finite y) eqn:Fy.
  2: { destruct y as [s|s| |s m e H]; try discriminate. cbn in Sy. subst s. destruct x as [s|s| |s m e H]; try discriminate; cbn in Sx; subst s; split; reflexivity. }
  pose proof (Bplus_correct 53 1024 _ _ mode_NE x y Fx Fy) as C.
  pose proof (nnum_R x Fx Sx) as Rx. pose proof (nnum_R y Fy Sy) as Ry.
  destruct (Rlt_bool _ _).
  - destruct C as (_ & Cf & Cs). apply nnum_fin; [exact Cf|]. etransitivity; [exact Cs|]. rewrite Sx, Sy. destruct (Rcompare_spec (B2R x + B2R y) 0); try reflexivity. lra.
  - destruct C as (C & _). apply nnum_inf. rewrite C, Sx. reflexivity.
Qed.
Lemma nnum_one_mult (x : b64) : nnum x -> nnum (Bmult mode_NE (ofZ64 1) x).
Proof.
  intros (Nx & Sx). destruct (is_finite x) eqn:Fx.
  2: { destruct x as [s|s| |s m e H]; try discriminate. cbn in Sx. subst s. split; reflexivity. }
  pose proof (Bmult_correct 53 1024 _ _ mode_NE (ofZ64 1) x) as C.
  destruct (Rlt_bool _ _).
  - destruct C as (_ & Cf & Cs). rewrite Fx in Cf. change (is_finite (ofZ64 1)) with true in Cf. apply nnum_fin; [exact Cf|]. 
    etransitivity; [apply Cs|]. { destruct (Bmult mode_NE (ofZ64 1) x); cbn in Cf |- *; congruence. } rewrite Sx. reflexivity.
  - apply nnum_inf. rewrite C, Sx. reflexivity.
Qed.
Lemma nnum_div (x : b64) : nnum x -> nnum (Bdiv mode_NE x (ofZ64 1000)).
Proof.
  intros (Nx & Sx). destruct (is_finite x) eqn:Fx.
  2: { destruct x as [s|s| |s m e H]; try discriminate. cbn in Sx. subst s. split; reflexivity. }
  destruct (ofZ64_isf 1000) as (F1 & V1); [lia|].
  assert (N0 : B2R (ofZ64 1000) <> 0%R) by (intros E; pose proof (eq_trans (eq_sym V1) E) as Q; apply eq_IZR in Q; discriminate).
  pose proof (Bdiv_correct 53 1024 _ _ mode_NE x (ofZ64 1000) N0) as C.
  destruct (Rlt_bool _ _).
  - destruct C as (_ & Cf & Cs). rewrite Fx in Cf. apply nnum_fin; [exact Cf|].
    etransitivity; [apply Cs|]. { destruct (Bdiv mode_NE x (ofZ64 1000)); cbn in Cf |- *; congruence. } rewrite Sx. reflexivity.
  - apply nnum_inf. rewrite C, Sx. reflexivity.
Qed.

(** [rank] lists, for the keys [l], the dense ranks of their [score]s: no score is NaN, two ranks compare as the scores do, and no rank
    between 0 and another one is missing.  Ranks are doubles as well. *)
Definition dense_ranks {A} (l : list A) (score rank : A -> option b64) : Prop :=
  exists rk : A -> nat,
    (forall x, In x l -> exists u, score x = Some u /\ is_nan u = false /\ rank x = Some (ofZ64 (Z.of_nat (rk x)))) /\
    (forall x y u w, In x l -> In y l -> score x = Some u -> score y = Some w -> Bltb u w = (rk x <? rk y)%nat) /\
    (forall x n, In x l -> (n < rk x)%nat -> exists y, In y l /\ rk y = n).

Section Usums64.
  Context {S V W : Type} {ES : Eqb S} {EV : Eqb V} {EW : Eqb W}.
  Variable L : libm.
  Notation F := (B64 L).
  Notation data := (dataset S V W F).
  Notation claim := (V * W)%type.
  Notation result := (result S V W b64).
  Notation cap := (2 ^ 53)%Z.

  (** ** Ranking vectors of vectors without NaN *)
  Lemma nth_error_ext {A} : forall l l' : list A, (forall i, nth_error l i = nth_error l' i) -> l = l'.
  Proof.
    induction l as [|x l IH]; intros [|y l'] H; [reflexivity|specialize (H 0%nat); discriminate|specialize (H 0%nat); discriminate|].
    pose proof (H 0%nat) as Q. injection Q as ->. f_equal. apply IH. intros i. exact (H (Datatypes.S i)).
  Qed.
  Lemma rank_map {A} (g : A -> F) (l : list A) (dec : Eqb A) : (forall x, In x l -> is_nan (g x) = false) ->
    exists rk : A -> nat, get_ranking_vector (F:=F) (map g l) = Some (map (fun x => ofZ64 (Z.of_nat (rk x))) l) /\
      forall x, In x l -> distinct_below (F:=F) (map g l) (g x) (rk x).
  Proof.
    intros G. destruct (ranking_spec (F:=F) (good := fun x : b64 => is_nan x = false) (map g l)) as (rs & E & Hl & Hs).
    { intros x Hx. apply in_map_iff in Hx. destruct Hx as (y & <- & Hy). auto. }
    rewrite map_length in Hl.
    assert (P : forall x, In x l -> exists r, nth_error rs (pos x l) = Some r).
    { intros x Hx. pose proof (nth_error_pos _ _ Hx) as Q. assert (Q' : nth_error l (pos x l) <> None) by congruence. apply nth_error_Some in Q'. rewrite <- Hl in Q'. apply nth_error_Some in Q'. destruct (nth_error rs (pos x l)); [eauto|congruence]. }
    assert (D : forall i x r, nth_error l i = Some x -> nth_error rs i = Some r -> distinct_below (F:=F) (map g l) (g x) r).
    { intros i x r Hi Hr. apply (Hs i (g x) r); [|exact Hr]. rewrite nth_error_map, Hi. reflexivity. }
    exists (fun x => nth (pos x l) rs 0%nat). 
    assert (N : forall x, In x l -> nth_error rs (pos x l) = Some (nth (pos x l) rs 0%nat)) by (intros x Hx; destruct (P x Hx) as (r & Hr); rewrite Hr; f_equal; symmetry; now apply nth_error_nth).
    split.
    - rewrite E. f_equal. apply nth_error_ext. intros i. rewrite !nth_error_map. destruct (nth_error l i) as [x|] eqn:Ex.
      + assert (Hx : In x l) by (eapply nth_error_In; eauto). destruct (nth_error rs i) as [r|] eqn:Er.
        * cbn. do 3 f_equal. apply (distinct_below_unique (F:=F) (good := fun x : b64 => is_nan x = false) (map g l) (g x)).
          { intros y Hy. apply in_map_iff in Hy. destruct Hy as (z & <- & Hz). auto. }
          { now apply (D i). } { apply (D (pos x l)); [apply nth_error_pos; exact Hx|now apply N]. }
        * apply nth_error_None in Er. assert (Q' : nth_error l i <> None) by congruence. apply nth_error_Some in Q'. lia.
      + apply nth_error_None in Ex. assert (Er : nth_error rs i = None) by (apply nth_error_None; lia). rewrite Er. reflexivity.
    - intros x Hx. apply (D (pos x l)); [apply nth_error_pos; exact Hx|now apply N].
  Qed.
  Lemma dense_intro {A} (g : A -> b64) (l : list A) (rk : A -> nat) (score rank : A -> option b64) : (forall x, In x l -> is_nan (g x) = false) ->
    (forall x, In x l -> distinct_below (F:=F) (map g l) (g x) (rk x)) -> (forall x, In x l -> score x = Some (g x)) -> (forall x, In x l -> rank x = Some (ofZ64 (Z.of_nat (rk x)))) ->
    dense_ranks l score rank.
  Proof.
    intros G D Sc Rk. set (good := fun x : b64 => is_nan x = false).
    assert (AG : forall y, In y (map g l) -> good y) by (intros y Hy; apply in_map_iff in Hy; destruct Hy as (z & <- & Hz); now apply G).
    assert (IM : forall x, In x l -> In (g x) (map g l)) by (intros; now apply in_map).
    assert (LT : forall x y, In x l -> In y l -> Bltb (g x) (g y) = true -> (rk x < rk y)%nat).
    { intros x y Hx Hy E. apply (distinct_below_lt (F:=F) (good := good) (map g l) (g x) (g y)); auto. }
    assert (EQ : forall x y, In x l -> In y l -> n_eqb (n:=F) (g x) (g y) = true -> rk x = rk y).
    { intros x y Hx Hy E. apply (distinct_below_unique (F:=F) (good := good) (map g l) (g y)); auto. apply (distinct_below_eqb (F:=F) (good := good) _ (g x)); auto; now apply G. }
    exists rk. split; [|split].
    - intros x Hx. exists (g x). auto.
    - intros x y u w Hx Hy Eu Ew. rewrite (Sc x Hx) in Eu. rewrite (Sc y Hy) in Ew. injection Eu as <-. injection Ew as <-.
      destruct (Bltb (g x) (g y)) eqn:E; symmetry; [apply Nat.ltb_lt; auto|]. apply Nat.ltb_ge.
      destruct (Bltb (g y) (g x)) eqn:E'; [apply Nat.lt_le_incl; auto|]. assert (Q : n_eqb (n:=F) (g x) (g y) = true); [|rewrite (EQ x y Hx Hy Q); apply Nat.le_refl].
      rewrite (on_eqb (F:=F) (good := good) (g x) (g y) (G x Hx) (G y Hy)). cbn. rewrite E, E'. reflexivity.
    - intros x n Hx Hn. destruct (D x Hx) as (ds & Hl & Hd & Hb & _).
      assert (Pre : forall y, In y ds -> exists z, In z l /\ g z = y /\ (rk z < rk x)%nat).
      { intros y Hy. destruct (Hb y Hy) as (Hy1 & Hy2). apply in_map_iff in Hy1. destruct Hy1 as (z & <- & Hz). exists z. split; [exact Hz|]. split; [reflexivity|]. now apply LT. }
      (* keys of the smaller values *)
      assert (K : exists zs, length zs = length ds /\ (forall z, In z zs -> In z l /\ (rk z < rk x)%nat) /\ NoDup (map rk zs)).
      { assert (K : forall ds, ForallOrdPairs (fun a b => n_eqb (n:=F) a b = false) ds -> (forall y, In y ds -> exists z, In z l /\ g z = y /\ (rk z < rk x)%nat) ->
          exists zs, map g zs = ds /\ (forall z, In z zs -> In z l /\ (rk z < rk x)%nat) /\ NoDup (map rk zs)).
        { clear - EQ LT G. induction ds as [|y ds IH]; intros Hd Pre; [exists []; repeat split; cbn; try tauto; constructor|].
          inversion Hd as [|? ? H1 H2]; subst. destruct IH as (zs & E & Hz & ND); [exact H2|intros; apply Pre; now right|]. destruct (Pre y (or_introl eq_refl)) as (z & Hz1 & <- & Hz2).
          exists (z :: zs). split; [cbn; now rewrite E|]. split; [intros z' [<-|Hz']; auto|]. cbn. constructor; [|exact ND]. intros Q. apply in_map_iff in Q. destruct Q as (z' & Er & Hz').
          rewrite Forall_forall in H1. assert (Hin : In (g z') ds) by (rewrite <- E; now apply in_map). specialize (H1 _ Hin).
          assert (Hz'l : In z' l) by (now apply Hz).
          rewrite (on_eqb (F:=F) (good := fun x : b64 => is_nan x = false) (g z) (g z') (G z Hz1) (G z' Hz'l)) in H1.
          destruct (n_ltb (n:=F) (g z) (g z')) eqn:E1; [apply LT in E1; auto; lia|]. destruct (n_ltb (n:=F) (g z') (g z)) eqn:E2; [apply LT in E2; auto; lia|]. discriminate. }
        destruct (K ds Hd Pre) as (zs & E & Hz & ND). exists zs. rewrite <- E, map_length. auto. }
      destruct K as (zs & El & Hz & ND).
      assert (I : incl (seq 0 (rk x)) (map rk zs)).
      { apply NoDup_length_incl; [exact ND|rewrite map_length, seq_length; lia|]. intros r Hr. apply in_map_iff in Hr. destruct Hr as (z & <- & Hz'). apply in_seq. destruct (Hz z Hz') as (_ & Q). lia. }
      assert (Q : In n (map rk zs)) by (apply I, in_seq; lia). apply in_map_iff in Q. destruct Q as (z & <- & Hz'). exists z. split; [now apply Hz|reflexivity].
  Qed.

  Section OneData.
    Variables (b : bool) (f : option (V -> W -> W -> option F)) (ts : list (S * V * W)) (d : data).
    Hypothesis Hb : build (F:=F) b f ts = Ok d.
    Hypothesis Small_s : (Z.of_nat (length (sources ts)) <= cap)%Z.
    Hypothesis Small_c : (Z.of_nat (length (claims ts)) <= cap)%Z.
    Hypothesis NE : ts <> [].
    Let R0 : ds_rep (F:=F) ts f d := build_rep _ _ _ _ Hb.

    Lemma nsum (l : list b64) a : nnum a -> (forall x, In x l -> nnum x) -> nnum (fold_left (Bplus mode_NE) l a).
    Proof.
      revert a. induction l as [|x l IH]; intros a Ha H; [exact Ha|]. cbn [fold_left]. apply IH; [apply nnum_plus; [exact Ha|apply H; now left]|intros; apply H; now right].
    Qed.
    Lemma zero_nnum : nnum (ofZ64 0). Proof. split; reflexivity. Qed.
    Lemma tb_nnum g : (forall c, In c (claims ts) -> nnum (g c)) -> forall s, nnum (tb64 ts g s).
    Proof.
      intros H s. unfold tb64. apply nsum; [exact zero_nnum|]. intros x Hx. apply in_map_iff in Hx. destruct Hx as (c & <- & Hc). apply nnum_one_mult, H. apply filter_In in Hc. apply Hc.
    Qed.
    Lemma tt_nnum g : (forall s, In s (sources ts) -> nnum (g s)) -> forall c, nnum (tt64 ts g c).
    Proof.
      intros H c. unfold tt64. apply nsum; [exact zero_nnum|]. intros x Hx. apply in_map_iff in Hx. destruct Hx as (s & <- & Hs). apply nnum_one_mult, H. apply filter_In in Hs. apply Hs.
    Qed.
    Lemma scaled {A} (g : A -> b64) (l : list A) : l <> [] -> exists h, rescale1 (F:=F) (map g l) = Some (map h l) /\ ((forall x, In x l -> nnum (g x)) -> forall x, In x l -> nnum (h x)).
    Proof.
      intros Hl. unfold rescale1. destruct (npmax_ne (F:=F) (map g l)) as (m & ->); [rewrite map_length; destruct l; [congruence|discriminate]|].
      destruct (n_ltb (n_ofZ 1000) m).
      - exists (fun x => Bdiv mode_NE (g x) (ofZ64 1000)). split; [unfold vdivs; now rewrite map_map|]. intros H x Hx. apply nnum_div. auto.
      - exists g. auto.
    Qed.
    (** the scores after a round: no NaN *)
    Definition clean (x : vec F * vec F) : Prop :=
      exists t g, x = (map t (sources ts), map g (claims ts)) /\ (forall s, In s (sources ts) -> nnum (t s)) /\ (forall c, In c (claims ts) -> nnum (g c)).
    Lemma clean_round x : clean x -> exists u v y, round (F:=F) UnboundedSums d x = UNext (map u (sources ts)) (map v (sources ts)) y /\ clean y /\
      (forall s, In s (sources ts) -> nnum (u s)) /\ (forall s, In s (sources ts) -> nnum (v s)).
    Proof.
      intros (t & g & -> & Ht & Hg). cbn [round usums_upd]. rewrite (sc64 L b f ts d Hb), (scT64 L b f ts d Hb).
      destruct (scaled (tb64 ts g) (sources ts) (src_ne ts NE)) as (h1 & E1 & N1). destruct (scaled (tt64 ts (tb64 ts g)) (claims ts) (cl_ne ts NE)) as (h2 & E2 & N2).
      rewrite E1, E2. pose proof (tb_nnum g Hg) as P1. pose proof (tt_nnum (tb64 ts g) (fun s _ => P1 s)) as P2.
      exists t, (tb64 ts g), (map h1 (sources ts), map h2 (claims ts)). split; [reflexivity|]. split; [|split; auto].
      exists h1, h2. split; [reflexivity|]. split; [apply N1; auto|apply N2; auto].
    Qed.
    Lemma clean_init p x0 : init (F:=F) UnboundedSums p d = Some x0 -> clean x0.
    Proof.
      intros H. cbn [init] in H. destruct (prior_beliefs p d) as [bel|] eqn:E; [|discriminate]. injection H as <-.
      destruct (prior_low L b f ts d Hb Small_s Small_c p bel E) as (g & -> & Hg).
      exists (fun _ => ofZ64 0), g. split; [|split].
      - f_equal. rewrite (rep_ns _ _ _ R0). unfold vzeros, vfull. clear. induction (sources ts); cbn; [reflexivity|now f_equal].
      - intros; exact zero_nnum.
      - intros c Hc. destruct (Hg c Hc) as (q & (Hq & Hq') & Hq2 & _). pose proof (bpow_gt_0 radix2 (-120)) as Q. apply nnum_fin; [exact Hq|]. revert Hq Hq'. destruct (g c) as [s|s| |s m e Hm]; cbn; intros Hq Hq'; try discriminate.
        + lra.
        + destruct s; [|reflexivity]. exfalso. assert (F2R (Float radix2 (Z.neg m) e) < 0)%R by (apply F2R_lt_0; cbn; lia). cbn in Hq'. lra.
    Qed.
    Lemma clean_scores p x0 : init (F:=F) UnboundedSums p d = Some x0 -> forall k, clean (scores (F:=F) UnboundedSums d x0 k).
    Proof.
      intros H. induction k as [|k IH]; [exact (clean_init p x0 H)|]. cbn [scores]. destruct (clean_round _ IH) as (u & v & y & E & Cy & _).
      assert (Q : match round (F:=F) UnboundedSums d (scores (F:=F) UnboundedSums d x0 k) with UNext _ _ x => x | _ => scores (F:=F) UnboundedSums d x0 k end = y) by now rewrite E.
      rewrite Q. exact Cy.
    Qed.
    Lemma ranked {A} (g : A -> F) (l : list A) (dec : Eqb A) : (forall x, In x l -> nnum (g x)) ->
      exists rk : A -> nat, get_ranking_vector (F:=F) (map g l) = Some (map (fun x => ofZ64 (Z.of_nat (rk x))) l) /\ forall x, In x l -> distinct_below (F:=F) (map g l) (g x) (rk x).
    Proof. intros H. apply rank_map; [exact dec|]. intros x Hx. apply (H x Hx). Qed.
    Lemma loop_ok p x0 : init (F:=F) UnboundedSums p d = Some x0 -> forall fuel t n c k,
      (exists e, fst (fst (it_loop (F:=F) (cmp1 (F:=F) UnboundedSums d x0) (cmp2 (F:=F) UnboundedSums d x0) (stops (F:=F) UnboundedSums d x0) fuel (IOrd t n c) k)) = Err e /\ e = OutOfFuel) \/
      (exists k' n' c', it_loop (F:=F) (cmp1 (F:=F) UnboundedSums d x0) (cmp2 (F:=F) UnboundedSums d x0) (stops (F:=F) UnboundedSums d x0) fuel (IOrd t n c) k = ((Ok tt, k'), IOrd t n' c')).
    Proof.
      intros H. induction fuel as [|m IH]; intros t n c k; cbn [it_loop]; [left; eexists; split; reflexivity|]. cbn [finished]. destruct (t <=? Z.of_nat c)%Z; [right; eauto|].
      destruct (clean_round _ (clean_scores p x0 H k)) as (u & v & y & E & _ & Nu & Nv).
      assert (E0 : stops (F:=F) UnboundedSums d x0 k = false) by (unfold stops; now rewrite E).
      assert (E1 : cmp1 (F:=F) UnboundedSums d x0 k = map u (sources ts)) by (unfold cmp1; now rewrite E).
      assert (E2 : cmp2 (F:=F) UnboundedSums d x0 k = map v (sources ts)) by (unfold cmp2; now rewrite E).
      rewrite E0, E1, E2. cbn [compare].
      destruct (ranked u (sources ts) _ Nu) as (rk1 & -> & _). destruct (ranked v (sources ts) _ Nv) as (rk2 & -> & _). apply IH.
    Qed.
    Lemma trust_reported (r : result) t g s : reports ts r t g -> In s (sources ts) -> trust_of r s = Some (t s).
    Proof. intros (Ra & _) Hs. rewrite Ra. apply mem_In in Hs. now rewrite Hs. Qed.
    Lemma belief_reported (r : result) t g c : reports ts r t g -> In c (claims ts) -> belief_of r c = Some (g c).
    Proof. intros (_ & Ra & _) Hs. rewrite Ra. apply mem_In in Hs. now rewrite Hs. Qed.

    (** With an ordinal iterator a run of UnboundedSums never raises an exception; the scores of the partial results are never NaN and never
        negative (they may be infinite); and the scores of the result are the dense ranks of those of the last partial result. *)
    Theorem C100_usums_float clock clock' fuel p t n c lg : p <> BadPrior ->
      let obj := AObj UnboundedSums p (IOrd t n c) lg in
      (forall e, fst (run (F:=F) clock fuel obj d) = Err e -> e = OutOfFuel) /\
      (forall rs q, fst (run_iter (F:=F) clock' fuel obj d) = Ok rs -> In q rs ->
        (forall s u, trust_of q s = Some u -> is_nan u = false /\ Bsign u = false) /\ (forall e u, belief_of q e = Some u -> is_nan u = false /\ Bsign u = false)) /\
      (forall r, fst (run (F:=F) clock fuel obj d) = Ok r ->
        exists rs q, fst (run_iter (F:=F) clock' fuel obj d) = Ok (rs ++ [q]) /\ r_iterations q = r_iterations r /\
          dense_ranks (sources ts) (trust_of q) (trust_of r) /\ dense_ranks (claims ts) (belief_of q) (belief_of r)).
    Proof.
      intros Hp obj. unfold obj. rewrite (run_char (F:=F) clock ts f d R0 NE), (run_iter_char (F:=F) clock' ts f d R0 NE).
      destruct (init (F:=F) UnboundedSums p d) as [x0|] eqn:E0; [|exfalso; cbn in E0; destruct p; cbn in E0; congruence]. cbn [reset].
      pose proof (clean_scores p x0 E0) as Cs.
      assert (PR : forall m j, exists u g, (forall s, In s (sources ts) -> nnum (u s)) /\ (forall s, In s (claims ts) -> nnum (g s)) /\
         scores (F:=F) UnboundedSums d x0 j = (map u (sources ts), map g (claims ts)) /\ reports ts (partial_result (F:=F) clock' ts d UnboundedSums x0 m j) u g).
      { intros m j. destruct (Cs j) as (u & g & E & Nu & Ng). exists u, g. split; [exact Nu|]. split; [exact Ng|]. split; [exact E|]. apply (reports64 L).
        - exact (f_equal (fun y => tdict (F:=F) ts (fst y)) E).
        - exact (f_equal (fun y => bdict (F:=F) ts (snd y)) E). }
      destruct (loop_ok p x0 E0 fuel t 0%nat 0%nat 0%nat) as [(e & El & ->)|(k & n' & c' & El)].
      { destruct (it_loop _ _ _ fuel (IOrd t 0 0) 0) as [[q k] it']. cbn [fst] in El. subst q. cbn [fst]. split; [congruence|]. split; intros; discriminate. }
      rewrite El. destruct (PR (1 + k)%nat k) as (u & g & Nu & Ng & Es & _).
      destruct (ranked u (sources ts) _ Nu) as (rk1 & Er1 & D1). destruct (ranked g (claims ts) _ Ng) as (rk2 & Er2 & D2).
      assert (Ef : final (F:=F) UnboundedSums (IOrd t n' c') (scores (F:=F) UnboundedSums d x0 k) = Ok (map (fun x => ofZ64 (Z.of_nat (rk1 x))) (sources ts), map (fun x => ofZ64 (Z.of_nat (rk2 x))) (claims ts))).
      { rewrite Es. cbn [final fst snd]. change (match get_ranking_vector (F:=F) (map (u : S -> F) (sources ts)), get_ranking_vector (F:=F) (map (g : claim -> F) (claims ts)) with Some t, Some b => Ok (t, b) | _, _ => Err KeyErr end =
          Ok (map (fun x => ofZ64 (Z.of_nat (rk1 x))) (sources ts), map (fun x => ofZ64 (Z.of_nat (rk2 x))) (claims ts))). rewrite Er1, Er2. reflexivity. }
      rewrite Ef. cbn [fst snd]. split; [discriminate|]. split.
      - intros rs q [= <-] Hq.
        assert (Q : exists m j, q = partial_result (F:=F) clock' ts d UnboundedSums x0 m j).
        { unfold Rounds.partial_results, initial_log in Hq. cbn [logs_initial] in Hq. apply in_app_iff in Hq. destruct Hq as [[<-|[]]|Hq]; [eauto|]. apply in_map_iff in Hq. destruct Hq as (j & <- & _). eauto. }
        destruct Q as (m & j & ->). destruct (PR m j) as (u' & g' & Nu' & Ng' & _ & Rp & Rq & _). split.
        + intros s w. rewrite Rp. destruct (mem s (sources ts)) eqn:Em; [|discriminate]. apply mem_In in Em. intros [= <-]. apply (Nu' s Em).
        + intros s w. rewrite Rq. destruct (mem s (claims ts)) eqn:Em; [|discriminate]. apply mem_In in Em. intros [= <-]. apply (Ng' s Em).
      - intros r [= <-].
        assert (Q : exists m rs, Rounds.partial_results (F:=F) clock' ts d UnboundedSums x0 k = rs ++ [partial_result (F:=F) clock' ts d UnboundedSums x0 m k]).
        { unfold Rounds.partial_results, initial_log. cbn [logs_initial]. destruct k as [|k].
          - exists 1%nat, []. reflexivity.
          - rewrite seq_S, map_app, app_assoc. eexists _, _. reflexivity. }
        destruct Q as (m & rs & Q). rewrite Q. exists rs, (partial_result (F:=F) clock' ts d UnboundedSums x0 m k). split; [reflexivity|]. split; [reflexivity|].
        destruct (PR m k) as (u' & g' & Nu' & Ng' & Es' & Rp).
        assert (Rr : reports ts (Result (tdict (F:=F) ts (map (fun x => ofZ64 (Z.of_nat (rk1 x))) (sources ts))) (bdict (F:=F) ts (map (fun x => ofZ64 (Z.of_nat (rk2 x))) (claims ts))) (n_sub (n:=F) (clock 1%nat) (clock 0%nat)) (Some k)) (fun x => ofZ64 (Z.of_nat (rk1 x))) (fun x => ofZ64 (Z.of_nat (rk2 x)))).
        { apply (reports64 L); reflexivity. }
        assert (Eu : forall s, In s (sources ts) -> u' s = u s).
        { rewrite Es in Es'. injection Es' as Q1 Q2. intros s Hs. symmetry. exact (ext_in_map Q1 s Hs). }
        assert (Eg : forall s, In s (claims ts) -> g' s = g s).
        { rewrite Es in Es'. injection Es' as Q1 Q2. intros s Hs. symmetry. exact (ext_in_map Q2 s Hs). }
        split.
        + apply (dense_intro u (sources ts) rk1); [intros s Hs; apply (Nu s Hs)|exact D1| |].
          * intros s Hs. refine (eq_trans (trust_reported _ _ _ s Rp Hs) _). f_equal. auto.
          * intros s Hs. exact (trust_reported _ _ _ s Rr Hs).
        + apply (dense_intro g (claims ts) rk2); [intros s Hs; apply (Ng s Hs)|exact D2| |].
          * intros s Hs. refine (eq_trans (belief_reported _ _ _ s Rp Hs) _). f_equal. auto.
          * intros s Hs. exact (belief_reported _ _ _ s Rr Hs).
    Qed.
  End OneData.
End Usums64.

(** ** Exactly, a source that makes all claims of another and one more has a higher rank *)
Section Exact.
  Context {S V W : Type} {ES : Eqb S} {EV : Eqb V} {EW : Eqb W}.
  Notation data := (dataset S V W XR).
  Variables (b : bool) (f : option (V -> W -> W -> option R)) (ts : list (S * V * W)) (d : data).
  Hypothesis Hb : build b (real_imp f) ts = Ok d.
  Local Open Scope R_scope.
  Lemma plain_pos x0 k : (forall c, In c (claims ts) -> 0 < snd x0 c) -> forall c, In c (claims ts) -> 0 < snd (rounds (plain_step ts) x0 k) c.
  Proof.
    intros P. induction k as [|k IH]; [exact P|]. cbn [rounds plain_step snd]. intros c Hc. apply total_trust_pos; [|exact Hc]. intros s Hs. now apply total_belief_pos.
  Qed.
  Theorem C100_more_claims_higher clock fuel p t n c lg r o' k s s' e : run clock fuel (AObj UnboundedSums p (IOrd t n c) lg) d = (Ok r, o') ->
    r_iterations r = Some k -> k <> 0%nat -> In s (sources ts) -> In s' (sources ts) ->
    (forall c, says ts s c = true -> says ts s' c = true) -> says ts s' e = true -> says ts s e = false ->
    exists q q', trust_of r s = Some (Fin q) /\ trust_of r s' = Some (Fin q') /\ q < q'.
  Proof.
    intros H Hk K0 Hs Hs' Sub He He'. destruct (C40_ranks_of_plain_recurrence b f ts d Hb clock fuel p t n c lg r o' H) as (x0 & k' & E0 & Ek & Rp).
    rewrite Ek in Hk. injection Hk as ->. destruct k as [|k]; [congruence|].
    pose proof (start_belief_pos ts UnboundedSums p x0 (or_intror (or_intror (or_intror (or_intror eq_refl)))) E0) as P0. pose proof (plain_pos x0 k P0) as P. set (x := rounds (plain_step ts) x0 k) in *.
    eexists. eexists. split; [exact (PropsAlg.reports_trust ts r _ s Rp Hs)|]. split; [exact (PropsAlg.reports_trust ts r _ s' Rp Hs')|]. cbn [ranks fst rounds plain_step]. apply lt_INR, rrank_lt; [exact Hs|].
    fold x. unfold total_belief, claims_of. rewrite !rsum_filter.
    assert (Ec : In e (claims ts)) by (apply claims_In; eauto).
    assert (Q : rsum (fun c => (if says ts s c then snd x c else 0) + (if beq c e then snd x e else 0)) (claims ts) <= rsum (fun c => if says ts s' c then snd x c else 0) (claims ts)).
    { apply rsum_le. intros c' Hc'. pose proof (P c' Hc'). destruct (beq_spec c' e) as [->|Ne].
      - rewrite He, He'. lra.
      - destruct (says ts s c') eqn:E1; [rewrite (Sub _ E1); lra|]. destruct (says ts s' c'); lra. }
    rewrite rsum_plus in Q. assert (Q2 : snd x e <= rsum (fun c => if beq c e then snd x e else 0) (claims ts)).
    { pose proof (rsum_ge_In (fun c => if beq c e then snd x e else 0) (claims ts) e) as G. cbn beta in G. rewrite beq_refl in G. apply G; [|exact Ec]. intros y _. pose proof (P e Ec). destruct (beq y e); lra. }
    pose proof (P e Ec). lra.
  Qed.
End Exact.

