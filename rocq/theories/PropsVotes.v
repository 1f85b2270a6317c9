(** C99: what further votes for a claim do.  Exact arithmetic unless said otherwise. *)
From Coq Require Import Reals Lra Psatz.
From Verif Require Import Base Num Sparse Spec SpecAlg Dataset DatasetProofs DatasetRep Iterators Algorithms Driver Distance Ranking Rounds
  AlgRep AlgRounds AlgTF AlgPack Local PropsData PropsIter PropsRun PropsAlg PropsOrd ExpSum Spectral Conv PropsConv TopEigen.
Local Open Scope R_scope.

Section Votes.
  Context {S V W : Type} {ES : Eqb S} {EV : Eqb V} {EW : Eqb W}.
  Notation claim := (V * W)%type.
  (** ts' says what ts says, and in addition one or more new sources make the claim c, which is among the claims of ts, and no other *)
  Definition more_votes (ts ts' : list (S * V * W)) (c : claim) : Prop :=
    In c (claims ts) /\
    (forall s, In s (sources ts) -> In s (sources ts') /\ forall e, says ts' s e = says ts s e) /\
    (forall s, In s (sources ts') -> ~ In s (sources ts) -> forall e, says ts' s e = true <-> e = c) /\
    (exists s, In s (sources ts') /\ ~ In s (sources ts)).

  Variables (ts ts' : list (S * V * W)) (c : claim).
  Hypothesis H : more_votes ts ts' c.
  Definition news : list S := filter (fun s => negb (mem s (sources ts))) (sources ts').
  Lemma news_In s : In s news <-> In s (sources ts') /\ ~ In s (sources ts).
  Proof. unfold news. rewrite filter_In, negb_true_iff. rewrite <- (mem_In s (sources ts)). destruct (mem s (sources ts)); intuition congruence. Qed.
  Lemma old_says s e : In s (sources ts) -> says ts' s e = says ts s e.
  Proof. intros Hs. now apply (proj1 (proj2 H)). Qed.
  Lemma new_says s e : In s news -> says ts' s e = beq e c.
  Proof.
    intros Hs. apply news_In in Hs. pose proof (proj1 (proj2 (proj2 H)) s (proj1 Hs) (proj2 Hs) e) as Z. destruct (beq_spec e c) as [->|N]; [now apply Z|].
    destruct (says ts' s e); [exfalso; apply N, Z; reflexivity|reflexivity].
  Qed.
  Lemma votes_claims e : In e (claims ts') <-> In e (claims ts).
  Proof.
    rewrite !claims_In. split; intros (s & Hs).
    - destruct (mem s (sources ts)) eqn:M.
      + apply mem_In in M. exists s. now rewrite <- old_says.
      + assert (N : In s news) by (apply news_In; split; [now apply says_source in Hs|rewrite <- mem_In; congruence]). rewrite (new_says s e N) in Hs. apply beq_eq in Hs. subst e.
        apply claims_In. exact (proj1 H).
    - exists s. rewrite old_says; [exact Hs|]. now apply says_source in Hs.
  Qed.
  Lemma votes_sources s : In s (sources ts') <-> In s (sources ts ++ news).
  Proof.
    rewrite in_app_iff, news_In. split; [intros Hs; destruct (Classical_Prop.classic (In s (sources ts))); auto|]. intros [Hs|[Hs _]]; [|exact Hs]. now apply (proj1 (proj2 H)).
  Qed.
  Lemma votes_nodup : NoDup (sources ts ++ news).
  Proof.
    assert (G : forall l m : list S, NoDup l -> NoDup m -> (forall x, In x l -> ~ In x m) -> NoDup (l ++ m)).
    { induction l as [|x l IH]; intros m D1 D2 X; [exact D2|]. inversion D1; subst. cbn. constructor.
      - rewrite in_app_iff. intros [Y|Y]; [contradiction|]. exact (X x (or_introl eq_refl) Y).
      - apply IH; auto. intros y Hy. apply X. now right. }
    apply G; [apply distinct_NoDup|apply NoDup_filter, distinct_NoDup|]. intros s Hs N. apply news_In in N. tauto.
  Qed.
  Lemma votes_rsum_src g : rsum g (sources ts') = rsum g (sources ts) + rsum g news.
  Proof. rewrite <- rsum_app. apply rsum_same_set; [apply distinct_NoDup|apply votes_nodup|exact votes_sources|reflexivity]. Qed.
  Lemma votes_rsum_cl g : rsum g (claims ts') = rsum g (claims ts).
  Proof. apply rsum_same_set; [apply distinct_NoDup|apply distinct_NoDup|exact votes_claims|reflexivity]. Qed.
  Lemma old_tb v s : In s (sources ts) -> total_belief ts' v s = total_belief ts v s.
  Proof. intros Hs. rewrite !tb_all, votes_rsum_cl. apply rsum_ext. intros e _. now rewrite old_says. Qed.
  Lemma new_tb v s : In s news -> total_belief ts' v s = v c.
  Proof.
    intros Hs. rewrite tb_all, votes_rsum_cl. rewrite (rsum_ext _ (fun e => v e * unit_vec c e)).
    - rewrite rsum_unit_aux by apply distinct_NoDup. pose proof (proj1 H) as Hc. apply mem_In in Hc. now rewrite Hc.
    - intros e _. rewrite (new_says s e Hs). unfold unit_vec, ind. destruct (beq_spec e c) as [->|N]; [rewrite beq_refl; ring|]. destruct (beq_spec c e); [congruence|ring].
  Qed.
  (** one unnormalised round on ts' *)
  Lemma votes_kop v e : kop ts' v e = kop ts v e + (if beq e c then INR (length news) * v c else 0).
  Proof.
    rewrite !kop_all, votes_rsum_src. f_equal.
    - apply rsum_ext. intros s Hs. now rewrite old_says, old_tb.
    - rewrite (rsum_ext _ (fun _ => if beq e c then v c else 0)).
      + rewrite rsum_const. destruct (beq e c); ring.
      + intros s Hs. rewrite (new_says s e Hs), (new_tb v s Hs). unfold ind. destruct (beq e c); ring.
  Qed.
  Lemma votes_ip y v : ip ts' y v = ip ts y v.
  Proof. apply votes_rsum_cl. Qed.
  Lemma votes_n : 1 <= INR (length news).
  Proof.
    destruct (proj2 (proj2 (proj2 H))) as (s & Hs). apply news_In in Hs. destruct news as [|x l]; [destruct Hs|]. cbn [length]. rewrite S_INR. pose proof (pos_INR (length l)). lra.
  Qed.

  Section Core.
    Variables (b b' : claim -> R) (la la' : R).
    Hypothesis La : 0 < la.
    Hypothesis Eig : forall e, In e (claims ts) -> kop ts b e = la * b e.
    Hypothesis Eig' : forall e, In e (claims ts) -> kop ts' b' e = la' * b' e.
    Hypothesis B1 : forall e, In e (claims ts) -> 0 <= b e.
    Hypothesis B1' : forall e, In e (claims ts) -> 0 <= b' e.
    Hypothesis Ray : forall y, (forall e, In e (claims ts) -> 0 <= y e) -> ip ts y (kop ts y) <= la * ip ts y y.
    Hypothesis Ray' : forall y, (forall e, In e (claims ts) -> 0 <= y e) -> ip ts' y (kop ts' y) <= la' * ip ts' y y.
    Notation cl := (claims ts).
    Lemma ip_ext y v v' : (forall e, In e cl -> v e = v' e) -> ip ts y v = ip ts y v'.
    Proof. intros X. apply rsum_ext. intros e He. now rewrite X. Qed.
    Lemma votes_la : 0 < b c -> la < la'.
    Proof.
      intros Pc. pose proof (Ray' b B1) as R1. rewrite !votes_ip in R1. pose proof (proj1 H) as Hc.
      assert (E : ip ts b (kop ts' b) = la * ip ts b b + INR (length news) * b c * b c).
      { unfold ip. rewrite (rsum_ext _ (fun e => la * (b e * b e) + INR (length news) * b c * b e * unit_vec c e)).
        - rewrite rsum_plus, rsum_scal. f_equal. rewrite rsum_unit_aux by apply distinct_NoDup. apply mem_In in Hc. now rewrite Hc.
        - intros e He. rewrite votes_kop, (Eig e He). unfold unit_vec. destruct (beq_spec e c) as [->|N]; [rewrite beq_refl; ring|]. destruct (beq_spec c e); [congruence|ring]. }
      rewrite E in R1. pose proof votes_n. assert (P : 0 < ip ts b b) by (apply (rsum_pos _ _ c); [intros; apply Rmult_le_pos; auto|exact Hc|now apply Rmult_lt_0_compat]).
      assert (0 < INR (length news) * b c * b c) by (repeat apply Rmult_lt_0_compat; lra). nra.
    Qed.
    Lemma votes_zero e : 0 < b c -> In e cl -> b e = 0 -> b' e = 0.
    Proof.
      intros Pc He Ze. pose proof (votes_la Pc) as L. set (y e := if Req_EM_T (b e) 0 then b' e else 0).
      assert (Y0 : forall e, In e cl -> 0 <= y e) by (intros x Hx; unfold y; destruct (Req_EM_T (b x) 0); [auto|lra]).
      (* claims linked to a claim with b = 0 have b = 0 *)
      assert (Nb : forall x k s, In x cl -> b x = 0 -> In s (supporters ts x) -> In k (claims_of ts s) -> b k = 0).
      { intros x k s Hx Zx Hs Hk. pose proof (Eig x Hx) as Ex. rewrite Zx, Rmult_0_r in Ex. unfold kop, total_trust in Ex.
        assert (T0 : forall s, 0 <= total_belief ts b s) by (intros s'; apply rsum_nonneg; intros k' Hk'; apply B1; now apply (claims_of_claims ts s')).
        pose proof (rsum_0_inv (total_belief ts b) (supporters ts x) (fun s _ => T0 s) Ex s Hs) as Es. unfold total_belief in Es.
        apply (rsum_0_inv b (claims_of ts s)); [|exact Es|exact Hk]. intros k' Hk'. apply B1. now apply (claims_of_claims ts s). }
      assert (Ky : forall x, In x cl -> b x = 0 -> kop ts y x = la' * y x).
      { intros x Hx Zx. assert (Nx : x <> c) by (intros ->; lra). transitivity (kop ts b' x).
        - unfold kop, total_trust, total_belief. apply rsum_ext. intros s Hs. apply rsum_ext. intros k Hk. unfold y. destruct (Req_EM_T (b k) 0) as [_|N]; [reflexivity|]. destruct N. now apply (Nb x k s).
        - pose proof (Eig' x Hx) as Ex. rewrite votes_kop in Ex. destruct (beq_spec x c) as [->|_]; [congruence|]. rewrite Rplus_0_r in Ex. rewrite Ex. unfold y. destruct (Req_EM_T (b x) 0); [reflexivity|congruence]. }
      assert (E : ip ts y (kop ts y) = la' * ip ts y y).
      { unfold ip. rewrite <- rsum_scal. apply rsum_ext. intros x Hx. destruct (Req_EM_T (b x) 0) as [Zx|Nx]; [rewrite (Ky x Hx Zx); ring|]. unfold y at 1 3. destruct (Req_EM_T (b x) 0); [congruence|ring]. }
      pose proof (Ray y Y0) as R1. rewrite E in R1. assert (P : 0 <= ip ts y y) by (apply rsum_nonneg; intros; apply Rmult_le_pos; auto). assert (Z : ip ts y y = 0) by nra.
      pose proof (rsum_sq_0 y cl Z e He) as Q. unfold y in Q. destruct (Req_EM_T (b e) 0); [exact Q|contradiction].
    Qed.
    Lemma votes_core e : In e cl -> b' e * b c <= b' c * b e.
    Proof.
      intros He. pose proof (proj1 H) as Hc. destruct (Rle_lt_or_eq_dec 0 (b c) (B1 c Hc)) as [Pc|<-]; [|rewrite Rmult_0_r; apply Rmult_le_pos; auto].
      pose proof (votes_la Pc) as L. set (P := filter (fun x => if Rlt_dec 0 (b x) then true else false) cl).
      assert (PI : forall x, In x P <-> In x cl /\ 0 < b x) by (intros x; unfold P; rewrite filter_In; destruct (Rlt_dec 0 (b x)); intuition congruence).
      assert (PN : P <> []) by (intros Z; assert (In c P) by (apply PI; auto); rewrite Z in *; contradiction).
      destruct (rmax_In (fun x => b' x / b x) P PN) as (j & Hj & Ej). apply PI in Hj. destruct Hj as [Hj Pj]. set (r := b' j / b j) in *.
      assert (Up : forall x, In x cl -> b' x <= r * b x).
      { intros x Hx. destruct (Rle_lt_or_eq_dec 0 (b x) (B1 x Hx)) as [Px|Zx].
        - pose proof (rmax_ge (fun x => b' x / b x) P x (proj2 (PI x) (conj Hx Px))) as Q. cbn beta in Q. rewrite Ej in Q.
          replace (b' x) with (b' x / b x * b x) by (field; lra). apply Rmult_le_compat_r; lra.
        - rewrite (votes_zero x Pc Hx (eq_sym Zx)), <- Zx. lra. }
      assert (Rj : r * b j = b' j) by (unfold r; field; lra).
      destruct (beq_spec j c) as [->|N].
      - apply Rle_trans with (r * b e * b c); [apply Rmult_le_compat_r; [lra|now apply Up]|]. rewrite <- Rj. right. ring.
      - assert (Zj : b' j = 0).
        { pose proof (Eig' j Hj) as Ek. rewrite votes_kop in Ek. destruct (beq_spec j c) as [|_]; [congruence|]. rewrite Rplus_0_r in Ek.
          pose proof (kop_le ts b' (fun x => r * b x) j Up) as Q. rewrite kop_scal, (Eig j Hj), Ek in Q. pose proof (B1' j Hj). nra. }
        assert (r = 0) as Zr by (unfold r; rewrite Zj; unfold Rdiv; ring). pose proof (Up e He) as Q. rewrite Zr, Rmult_0_l in Q. pose proof (B1' c Hc). pose proof (B1 e He).
        assert (b' e * b c <= 0) by nra. assert (0 <= b' c * b e) by (apply Rmult_le_pos; assumption). lra.
    Qed.
  End Core.
End Votes.

Section C99.
  Context {S V W : Type} {ES : Eqb S} {EV : Eqb V} {EW : Eqb W}.
  Notation data := (dataset S V W XR).
  Notation claim := (V * W)%type.
  Notation rscores := (@rscores S V W).
  (** the limit of Sums is an eigenvector for the largest eigenvalue *)
  Lemma sums_limit b f ts (d : data) p x0 : build b (real_imp f) ts = Ok d -> ts <> [] -> start ts Sums p = Some x0 ->
    exists (z : rscores) la, 0 < la /\
      (forall c, In c (claims ts) -> Un_cv (fun k => snd (rounds (step_of f ts Sums) x0 k) c) (snd z c)) /\
      (exists c, In c (claims ts) /\ snd z c = 1) /\
      (forall c, In c (claims ts) -> kop ts (snd z) c = la * snd z c) /\ (forall c, In c (claims ts) -> 0 <= snd z c <= 1) /\
      forall y, (forall c, In c (claims ts) -> 0 <= y c) -> ip ts y (kop ts y) <= la * ip ts y y.
  Proof.
    intros Hb NE E0. assert (Hc : converging ts Sums) by (left; reflexivity). pose proof (pack_start_good ts Sums p x0 Logic.I E0) as Hg.
    destruct (limit_fixed b f ts d Hb Sums x0 NE Hc Hg) as (z & Cs & Cc & _ & (c1 & Hc1 & E1) & _ & F2).
    set (x k := rounds (step_of f ts Sums) x0 k) in *.
    assert (Z2 : forall c, In c (claims ts) -> 0 <= snd z c <= 1).
    { intros s Hs. split; [apply (cv_ge (fun k => snd (x k) s)); [|now apply Cc]|apply Ropp_le_cancel, (cv_ge (fun k => - snd (x k) s)); [|apply (CV_opp (fun k => snd (x k) s)); now apply Cc]];
        exists 1%nat; intros k Hk; (destruct k as [|k]; [lia|]); pose proof (proj2 (x_range b f ts d Hb Sums x0 NE Hc Hg k) s Hs) as Q; change (0 <= snd (x (Datatypes.S k)) s <= 1) in Q; lra. }
    set (la := rmax (kop ts (snd z)) (claims ts)).
    assert (Pk : 0 < kop ts (snd z) c1).
    { pose proof Hc1 as Hs. apply claims_In in Hs. destruct Hs as (s & Hs). unfold kop, total_trust. apply (rsum_pos _ _ s); [|now apply supporters_In|].
      - intros s' _. apply rsum_nonneg. intros k Hk. apply Z2. now apply (claims_of_claims ts s').
      - unfold total_belief. apply (rsum_pos _ _ c1); [|now apply claims_of_In|lra]. intros k Hk. apply Z2. now apply (claims_of_claims ts s). }
    assert (La : 0 < la) by (pose proof (rmax_ge (kop ts (snd z)) (claims ts) c1 Hc1) as Q; fold la in Q; lra).
    assert (Eig : forall c, In c (claims ts) -> kop ts (snd z) c = la * snd z c).
    { intros c Hcl. rewrite <- (F2 c Hcl). cbn [step_of]. unfold sums_step, by_max. cbn [snd]. fold (kop ts (snd z)). change (total_trust ts (total_belief ts (snd z))) with (kop ts (snd z)). fold la. field. lra. }
    assert (Yk : forall k c, snd (rounds (wstep ts (weight ts Sums)) x0 k) c = kiter ts k (snd x0) c).
    { induction k as [|k IH]; intros c; [reflexivity|]. cbn [rounds kiter]. unfold kop, total_trust. cbn [wstep snd]. unfold total_trust. apply rsum_ext. intros s _. cbn [weight]. rewrite Rmult_1_l.
      unfold total_belief. apply rsum_ext. intros; apply IH. }
    exists z, la. split; [exact La|]. split; [exact Cc|]. split; [eauto|]. split; [exact Eig|]. split; [exact Z2|].
    apply (rayleigh ts (snd x0) (snd z) la).
    - exact Hg.
    - intros [|k]; [apply rmax_cl_pos; [exact NE|exact Hg]|]. pose proof (proj2 (proj2 (proj2 (y_facts b f ts d Hb Sums x0 NE Hc Hg k)))) as Q.
      rewrite (rmax_ext _ (kiter ts (Datatypes.S k) (snd x0)) (claims ts)) in Q by (intros; apply Yk). exact Q.
    - intros c Hcl. apply (cv_unshift _ _ 1). apply (cv_ext (fun k => snd (x (1 + k)%nat) c)); [|apply (cv_shift (fun k => snd (x k) c)); now apply Cc].
      intros k. unfold x. change (1 + k)%nat with (Datatypes.S k). rewrite (proj2 (x_norm b f ts d Hb Sums x0 NE Hc Hg k) c Hcl). unfold by_max. rewrite Yk.
      now rewrite (rmax_ext _ (kiter ts (Datatypes.S k) (snd x0)) (claims ts)) by (intros; apply Yk).
    - exact Eig.
    - exact Z2.
    - lra.
  Qed.

  (** In the limit Sums is monotone: after further votes for c no claim gains on c. *)
  Theorem C99_sums_limit b f b' f' ts ts' (d d' : data) p c :
    build b (real_imp f) ts = Ok d -> build b' (real_imp f') ts' = Ok d' -> more_votes ts ts' c -> p <> BadPrior ->
    exists z z' : claim -> R,
      (forall eps, 0 < eps -> exists N, forall clock fuel it lg r o k, run clock fuel (AObj Sums p it lg) d = (Ok r, o) -> r_iterations r = Some k -> (N <= k)%nat ->
        forall e, In e (claims ts) -> exists u, belief_of r e = Some (Fin u) /\ Rabs (u - z e) < eps) /\
      (forall eps, 0 < eps -> exists N, forall clock fuel it lg r o k, run clock fuel (AObj Sums p it lg) d' = (Ok r, o) -> r_iterations r = Some k -> (N <= k)%nat ->
        forall e, In e (claims ts) -> exists u, belief_of r e = Some (Fin u) /\ Rabs (u - z' e) < eps) /\
      (exists e, In e (claims ts) /\ z e = 1) /\ (exists e, In e (claims ts) /\ z' e = 1) /\
      (forall e, In e (claims ts) -> z' e * z c <= z' c * z e) /\
      (z c = 1 -> z' c = 1).
  Proof.
    intros Hb Hb' MV Hp. pose proof (proj1 MV) as Hc. assert (NE : ts <> []) by (intros ->; destruct Hc).
    assert (NE' : ts' <> []) by (intros ->; apply (votes_claims ts [] c MV) in Hc; destruct Hc).
    assert (G : forall l : list (S * V * W), exists x0, start l (@Sums XR) p = Some x0) by (intros l; cbn [start]; destruct p; cbn [prior_spec option_map]; eauto; congruence).
    destruct (G ts) as [x0 E0]. destruct (G ts') as [x0' E0']. clear G.
    destruct (sums_limit b f ts d p x0 Hb NE E0) as (z & la & La & Cc & (c1 & Hc1 & Z1) & Eig & B1 & Ray).
    destruct (sums_limit b' f' ts' d' p x0' Hb' NE' E0') as (z' & la' & La' & Cc' & (c2 & Hc2 & Z2) & Eig' & B1' & Ray').
    pose proof (votes_claims ts ts' c MV) as VC.
    assert (Core : forall e, In e (claims ts) -> snd z' e * snd z c <= snd z' c * snd z e).
    { intros e He. apply (votes_core ts ts' c MV (snd z) (snd z') la la'); auto.
      - intros x Hx. apply Eig'. now apply VC.
      - intros x Hx. now apply B1.
      - intros x Hx. apply B1'. now apply VC.
      - intros y Hy. apply Ray'. intros x Hx. apply Hy. now apply VC. }
    exists (snd z), (snd z'). split; [|split; [|split; [eauto|split; [exists c2; split; [now apply VC|exact Z2]|split; [exact Core|]]]]].
    - intros eps He. destruct (eventually_all (fun e k => Rabs (snd (rounds (step_of f ts Sums) x0 k) e - snd z e) < eps) (claims ts)) as [N K]; [intros e Hcl; exact (Cc e Hcl eps He)|].
      exists N. intros clock fuel it lg r o k Hr Hk Hn e Hcl.
      destruct (C33_sums_recurrence b f ts d Hb _ _ _ _ _ _ _ Hr) as (x1 & k' & E1 & Ek & Rp). rewrite Hk in Ek. injection Ek as <-.
      assert (x1 = x0) as -> by (change (start ts (@Sums (num XR)) p = Some x1) in E1; rewrite E0 in E1; now injection E1).
      eexists. split; [exact (reports_belief ts r _ e Rp Hcl)|]. now apply K.
    - intros eps He. destruct (eventually_all (fun e k => Rabs (snd (rounds (step_of f' ts' Sums) x0' k) e - snd z' e) < eps) (claims ts')) as [N K]; [intros e Hcl; exact (Cc' e Hcl eps He)|].
      exists N. intros clock fuel it lg r o k Hr Hk Hn e Hcl. apply VC in Hcl.
      destruct (C33_sums_recurrence b' f' ts' d' Hb' _ _ _ _ _ _ _ Hr) as (x1 & k' & E1 & Ek & Rp). rewrite Hk in Ek. injection Ek as <-.
      assert (x1 = x0') as -> by (change (start ts' (@Sums (num XR)) p = Some x1) in E1; rewrite E0' in E1; now injection E1).
      eexists. split; [exact (reports_belief ts' r _ e Rp Hcl)|]. now apply K.
    - intros Zc. apply VC in Hc2. pose proof (Core c2 Hc2) as Q. rewrite Zc, Z2 in Q. pose proof (B1 c2 Hc2) as Q2. assert (Hc' : In c (claims ts')) by (now apply VC). pose proof (B1' c Hc'). nra.
  Qed.
End C99.

(** ** AverageLog does not count them *)
Section C99Avlog.
  Context {S V W : Type} {ES : Eqb S} {EV : Eqb V} {EW : Eqb W}.
  Notation data := (dataset S V W XR).
  Notation claim := (V * W)%type.
  Notation rscores := (@rscores S V W).
  Variables (ts ts' : list (S * V * W)) (c : claim).
  Hypothesis MV : more_votes ts ts' c.
  Lemma votes_claims_of s : In s (sources ts) -> forall e, In e (claims_of ts' s) <-> In e (claims_of ts s).
  Proof. intros Hs e. rewrite !claims_of_In. now rewrite (old_says ts ts' c MV s e Hs). Qed.
  Lemma same_length {A} (l m : list A) : NoDup l -> NoDup m -> (forall x, In x l <-> In x m) -> length l = length m.
  Proof. intros D1 D2 X. assert (P : forall l m : list A, NoDup l -> (forall x, In x l -> In x m) -> (length l <= length m)%nat) by (intros l0 m0 D Y; now apply NoDup_incl_length). pose proof (P l m D1 (fun x => proj1 (X x))). pose proof (P m l D2 (fun x => proj2 (X x))). lia. Qed.
  Lemma old_n_claims s : In s (sources ts) -> n_claims ts' s = n_claims ts s.
  Proof. intros Hs. unfold n_claims. f_equal. apply same_length; [apply NoDup_filter, distinct_NoDup|apply NoDup_filter, distinct_NoDup|now apply votes_claims_of]. Qed.
  Lemma new_n_claims s : In s (news ts ts') -> n_claims ts' s = 1.
  Proof.
    intros Hs. unfold n_claims. change 1 with (INR 1). f_equal. change 1%nat with (length [c]). apply same_length; [apply NoDup_filter, distinct_NoDup|repeat constructor; auto|].
    intros e. rewrite claims_of_In, (new_says ts ts' c MV s e Hs). destruct (beq_spec e c) as [->|N]; cbn; intuition congruence.
  Qed.
  Definition agree_on (x x' : rscores) : Prop := (forall s, In s (sources ts) -> fst x' s = fst x s) /\ (forall e, In e (claims ts) -> snd x' e = snd x e).
  Lemma avlog_agree x x' : (exists s, In s (sources ts)) -> (forall e, In e (claims ts) -> 0 <= snd x e) -> agree_on x x' ->
    agree_on (avlog_step ts x) (avlog_step ts' x') /\ forall s, In s (news ts ts') -> fst (avlog_step ts' x') s = 0.
  Proof.
    intros (s0 & Hs0) Nn (_ & Hc). pose proof (votes_claims ts ts' c MV) as VC. pose proof (votes_sources ts ts' c MV) as VS.
    set (t s := ln (n_claims ts s) * (total_belief ts (snd x) s / n_claims ts s)). set (t' s := ln (n_claims ts' s) * (total_belief ts' (snd x') s / n_claims ts' s)).
    assert (T1 : forall s, In s (sources ts) -> t' s = t s).
    { intros s Hs. unfold t, t'. rewrite (old_n_claims s Hs), (old_tb ts ts' c MV (snd x') s Hs). do 2 f_equal. apply rsum_ext. intros e He. apply Hc. now apply (claims_of_claims ts s). }
    assert (T2 : forall s, In s (news ts ts') -> t' s = 0) by (intros s Hs; unfold t'; rewrite (new_n_claims s Hs), ln_1; ring).
    assert (T0 : forall s, In s (sources ts) -> 0 <= t s) by (intros s Hs; exact (avlog_trust_nonneg ts (snd x) s Nn Hs)).
    assert (Mt : rmax t' (sources ts') = rmax t (sources ts)).
    { destruct (rmax_In t (sources ts)) as (j & Hj & Ej); [intros Z; rewrite Z in Hs0; destruct Hs0|]. rewrite Ej, <- (T1 j Hj). apply rmax_is; [apply VS, in_app_iff; now left|].
      intros s Hs. apply VS in Hs. apply in_app_iff in Hs. rewrite (T1 j Hj). destruct Hs as [Hs|Hs]; [rewrite (T1 s Hs), <- Ej; now apply rmax_ge|rewrite (T2 s Hs); now apply T0]. }
    assert (U : forall e, total_trust ts' t' e = total_trust ts t e).
    { intros e. rewrite <- !rsum_ind. rewrite (votes_rsum_src ts ts' c MV). rewrite <- (Rplus_0_r (rsum (fun s => ind (says ts s e) * t s) (sources ts))). f_equal.
      - apply rsum_ext. intros s Hs. now rewrite (old_says ts ts' c MV s e Hs), (T1 s Hs).
      - rewrite (rsum_ext _ (fun _ => 0)); [apply rsum_zero|]. intros s Hs. rewrite (T2 s Hs). ring. }
    assert (Mu : rmax (total_trust ts' t') (claims ts') = rmax (total_trust ts t) (claims ts)).
    { pose proof (proj1 MV) as Hcc. destruct (rmax_In (total_trust ts t) (claims ts)) as (j & Hj & Ej); [intros Z; rewrite Z in Hcc; destruct Hcc|]. rewrite Ej, <- (U j). apply rmax_is; [now apply VC|].
      intros e He. rewrite !U, <- Ej. apply rmax_ge. now apply VC. }
    unfold avlog_step. cbn [fst snd]. fold t t'. split; [split|].
    - intros s Hs. cbn [fst]. unfold by_max. now rewrite Mt, (T1 s Hs).
    - intros e He. cbn [snd]. unfold by_max. now rewrite Mu, U.
    - intros s Hs. unfold by_max. rewrite (T2 s Hs). unfold Rdiv. ring.
  Qed.
  Lemma votes_rivals e : prior_spec ts UNIFORM = Some (fun c => 1 / INR (length (rivals ts c))) /\ length (rivals ts' e) = length (rivals ts e).
  Proof.
    split; [reflexivity|]. apply same_length; [apply NoDup_filter, distinct_NoDup|apply NoDup_filter, distinct_NoDup|].
    intros x. unfold rivals. rewrite !filter_In. now rewrite (votes_claims ts ts' c MV x).
  Qed.

  (** With the priors FIXED (the default) or UNIFORM, AverageLog reports the same scores with and without the new votes: sources that
      make a single claim have no influence on it (and trust 0). *)
  Theorem C99_avlog_ignores b f b' f' (d d' : data) p clock clock' fuel fuel' it it' lg lg' r r' o o' k :
    build b (real_imp f) ts = Ok d -> build b' (real_imp f') ts' = Ok d' -> (exists s, In s (sources ts) /\ (2 <= length (claims_of ts s))%nat) -> p = FIXED \/ p = UNIFORM ->
    run clock fuel (AObj AverageLog p it lg) d = (Ok r, o) -> run clock' fuel' (AObj AverageLog p it' lg') d' = (Ok r', o') -> r_iterations r = Some k -> r_iterations r' = Some k ->
    (forall e, In e (claims ts) -> exists u, belief_of r e = Some u /\ belief_of r' e = Some u) /\
    (forall s, In s (sources ts) -> exists u, trust_of r s = Some u /\ trust_of r' s = Some u) /\
    (forall s, In s (sources ts') -> ~ In s (sources ts) -> trust_of r' s = Some (Fin 0)).
  Proof.
    intros Hb Hb' H2 Hp Hr Hr' Hk Hk'.
    assert (H2' : exists s, In s (sources ts') /\ (2 <= length (claims_of ts' s))%nat).
    { destruct H2 as (s & Hs & Ls). exists s. split; [apply (votes_sources ts ts' c MV), in_app_iff; now left|]. pose proof (old_n_claims s Hs) as E. apply INR_eq in E. lia. }
    destruct (C35_avlog_recurrence b f ts d Hb _ _ _ _ _ _ _ H2 Hr) as (x0 & k1 & E0 & Ek & Rp & _). rewrite Hk in Ek. injection Ek as <-.
    destruct (C35_avlog_recurrence b' f' ts' d' Hb' _ _ _ _ _ _ _ H2' Hr') as (x0' & k1 & E0' & Ek & Rp' & _). rewrite Hk' in Ek. injection Ek as <-.
    assert (NE : ts <> []) by (destruct H2 as (s & Hs & _); intros ->; destruct Hs).
    assert (A0 : agree_on x0 x0' /\ (forall s, fst x0' s = 0) /\ avlog_inv ts x0).
    { pose proof (pack_start_good ts AverageLog p x0 Logic.I E0) as G. split; [|split; [|exact G]].
      - destruct Hp as [-> | ->]; injection E0 as <-; injection E0' as <-; (split; [reflexivity|]); intros e He; cbn [snd]; [reflexivity|]. now rewrite (proj2 (votes_rivals e)).
      - destruct Hp as [-> | ->]; injection E0' as <-; reflexivity. }
    destruct A0 as (A0 & Z0 & G0).
    assert (A : forall j, agree_on (rounds (avlog_step ts) x0 j) (rounds (avlog_step ts') x0' j) /\ (forall s, In s (news ts ts') -> fst (rounds (avlog_step ts') x0' j) s = 0) /\ avlog_inv ts (rounds (avlog_step ts) x0 j)).
    { induction j as [|j (IH & _ & IG)]; [split; [exact A0|split; [intros; apply Z0|exact G0]]|]. cbn [rounds].
      destruct (avlog_agree _ _ ltac:(destruct H2 as (s & Hs & _); eauto) (proj1 IG) IH) as (Q1 & Q2). split; [exact Q1|]. split; [exact Q2|].
      exact (proj1 (proj2 (avlog_round ts (real_imp f) d (build_rep _ _ _ _ Hb) NE _ H2 IG))). }
    destruct (A k) as ((A1 & A2) & A3 & _). split; [|split].
    - intros e He. eexists. split; [exact (reports_belief ts r _ e Rp He)|]. rewrite <- (A2 e He). apply (reports_belief ts' r' _ e Rp'). now apply (votes_claims ts ts' c MV).
    - intros s Hs. exists (Fin (fst (rounds (avlog_step ts) x0 k) s)). destruct Rp as (R1 & _). destruct Rp' as (R1' & _). rewrite R1, R1'. rewrite <- (A1 s Hs).
      assert (Hs' : In s (sources ts')) by (apply (votes_sources ts ts' c MV), in_app_iff; now left). apply mem_In in Hs, Hs'. rewrite Hs, Hs'. split; reflexivity.
    - intros s Hs N. destruct Rp' as (R1' & _). rewrite R1'. rewrite (proj2 (mem_In s (sources ts')) Hs). f_equal. f_equal. apply A3. now apply news_In.
  Qed.
End C99Avlog.

(** The simplest case: one triple by a new source is added at the end. *)
Lemma more_votes_snoc {S V W : Type} {ES : Eqb S} {EV : Eqb V} {EW : Eqb W} (ts : list (S * V * W)) s x v :
  In (x, v) (claims ts) -> ~ In s (sources ts) -> more_votes ts (ts ++ [(s, x, v)]) (x, v).
Proof.
  intros Hc Ns.
  assert (F0 : forall y, first_claim ts s y = None).
  { intros y. destruct (first_claim ts s y) as [w|] eqn:E; [|reflexivity]. exfalso. apply Ns. apply sources_In. apply first_claim_In in E. eauto. }
  assert (Hs : In s (sources (ts ++ [(s, x, v)]))) by (apply sources_In; exists x, v; apply in_app_iff; right; now left).
  split; [exact Hc|]. split; [|split].
  - intros s' Hs'. split; [apply sources_In in Hs'; destruct Hs' as (y & w & Hs'); apply sources_In; exists y, w; apply in_app_iff; now left|].
    intros e. rewrite says_snoc. destruct (first_claim ts s' (fst e)) as [w|] eqn:E; [reflexivity|].
    change (t_src (s, x, v)) with s. destruct (beq_spec s' s) as [->|_]; [contradiction|]. cbn [andb]. symmetry. destruct (says ts s' e) eqn:Q; [|reflexivity]. apply says_true in Q. congruence.
  - intros s' Hs' N e. assert (s' = s) as ->.
    { apply sources_In in Hs'. destruct Hs' as (y & w & Hs'). apply in_app_iff in Hs'. destruct Hs' as [Hs'|[Hs'|[]]]; [exfalso; apply N; apply sources_In; eauto|congruence]. }
    rewrite says_snoc, F0. change (t_src (s, x, v)) with s. change (t_claim (s, x, v)) with (x, v). rewrite beq_refl. cbn [andb]. apply beq_true.
  - exists s. auto.
Qed.

Module VotesExamples.
  Import ListNotations.
  (** source 4 joins source 1 in the claim 7 = 1 *)
  Definition joined : list (nat * nat * nat) := ConvExamples.three ++ [(4, 7, 1)%nat].
  Example joined_votes : more_votes ConvExamples.three joined (7, 1)%nat.
  Proof. apply more_votes_snoc; [apply mem_In; reflexivity|]. intros H. apply mem_In in H. discriminate. Qed.
  Lemma joined_builds : exists d : dataset nat nat nat XR, build false (real_imp None) joined = Ok d.
  Proof. apply AlgExamples.strict_builds. unfold joined, ConvExamples.three, sv_pairs; cbn. repeat constructor; cbn; intuition congruence. Qed.
  (** the theorem applies to it *)
  Example applies : exists (d d' : dataset nat nat nat XR) (z z' : nat * nat -> R), build false (real_imp None) ConvExamples.three = Ok d /\ build false (real_imp None) joined = Ok d' /\
    (exists e, In e (claims ConvExamples.three) /\ z e = 1) /\ (exists e, In e (claims ConvExamples.three) /\ z' e = 1) /\
    forall e, In e (claims ConvExamples.three) -> z' e * z (7, 1)%nat <= z' (7, 1)%nat * z e.
  Proof.
    destruct ConvExamples.three_builds as [d Hd]. destruct joined_builds as [d' Hd'].
    destruct (C99_sums_limit false None false None ConvExamples.three joined d d' FIXED (7, 1)%nat Hd Hd' joined_votes ltac:(discriminate)) as (z & z' & _ & _ & Z1 & Z2 & H & _).
    exists d, d', z, z'. split; [exact Hd|]. split; [exact Hd'|]. split; [exact Z1|]. split; [exact Z2|exact H].
  Qed.
  (** and AverageLog runs on both *)
  Example avlog_runs : exists (d d' : dataset nat nat nat XR) r r', build false (real_imp None) ConvExamples.three = Ok d /\ build false (real_imp None) joined = Ok d' /\
    fst (run (fun _ => Fin 0) 30 (AObj AverageLog FIXED (IFixed 20 0) None) d) = Ok r /\ fst (run (fun _ => Fin 0) 30 (AObj AverageLog FIXED (IFixed 20 0) None) d') = Ok r' /\
    exists s, In s (sources ConvExamples.three) /\ (2 <= length (claims_of ConvExamples.three s))%nat.
  Proof.
    destruct ConvExamples.three_builds as [d Hd]. destruct joined_builds as [d' Hd'].
    destruct (C28_fixed_returns false (real_imp None) ConvExamples.three d Hd (fun _ => Fin 0) 30 AverageLog FIXED 20 0 None) as (r & Hr); [discriminate|discriminate|discriminate|cbn; lia|].
    destruct (C28_fixed_returns false (real_imp None) joined d' Hd' (fun _ => Fin 0) 30 AverageLog FIXED 20 0 None) as (r' & Hr'); [discriminate|discriminate|discriminate|cbn; lia|].
    exists d, d', r, r'. split; [exact Hd|]. split; [exact Hd'|]. split; [exact Hr|]. split; [exact Hr'|]. exists 1%nat. split; [now left|]. cbn. lia.
  Qed.
End VotesExamples.
