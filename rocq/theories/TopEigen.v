(** The limit of power iteration from a positive start belongs to the largest eigenvalue.  Used for C99. *)
From Coq Require Import Reals Lra Psatz.
From Verif Require Import Base Num Sparse Spec SpecAlg Dataset DatasetProofs DatasetRep Iterators Algorithms Driver Distance Ranking Rounds
  AlgRep AlgRounds AlgTF AlgPack PropsData PropsIter PropsRun PropsAlg PropsOrd ExpSum Spectral Conv.
Local Open Scope R_scope.

Section Top.
  Context {S V W : Type} {ES : Eqb S} {EV : Eqb V} {EW : Eqb W}.
  Notation claim := (V * W)%type.
  Variable ts : list (S * V * W).
  Notation cl := (claims ts).
  (** the belief a claim gets from the beliefs v in one round of Sums, before normalisation *)
  Definition kop (v : claim -> R) (c : claim) : R := total_trust ts (total_belief ts v) c.
  Fixpoint kiter (p : nat) (v : claim -> R) : claim -> R := match p with O => v | Datatypes.S q => kop (kiter q v) end.
  Definition ip (y v : claim -> R) : R := rsum (fun c => y c * v c) cl.

  Lemma tb_all v s : total_belief ts v s = rsum (fun c => ind (says ts s c) * v c) cl.
  Proof. unfold total_belief, claims_of. rewrite rsum_filter. apply rsum_ext. intros c _. unfold ind. destruct (says ts s c); ring. Qed.
  Lemma kop_all v c : kop v c = rsum (fun s => ind (says ts s c) * total_belief ts v s) (sources ts).
  Proof. unfold kop. now rewrite rsum_ind. Qed.
  Lemma ip_kop y v : ip y (kop v) = rsum (fun s => total_belief ts y s * total_belief ts v s) (sources ts).
  Proof.
    unfold ip. rewrite (rsum_ext _ (fun c => rsum (fun s => y c * (ind (says ts s c) * total_belief ts v s)) (sources ts))) by (intros; rewrite kop_all; now rewrite rsum_scal).
    rewrite rsum_swap. apply rsum_ext. intros s _. rewrite (tb_all y s), <- rsum_scal_r. apply rsum_ext. intros; ring.
  Qed.
  Lemma ip_sym y v : ip y v = ip v y.
  Proof. apply rsum_ext. intros; ring. Qed.
  Lemma ip_kop_sym y v : ip y (kop v) = ip (kop y) v.
  Proof. rewrite (ip_sym (kop y)), !ip_kop. apply rsum_ext. intros; ring. Qed.
  Lemma tb_le v w s : (forall c, In c cl -> v c <= w c) -> total_belief ts v s <= total_belief ts w s.
  Proof. intros H. apply rsum_le. intros c Hc. apply H. unfold claims_of in Hc. apply filter_In in Hc. tauto. Qed.
  Lemma kop_le v w c : (forall c, In c cl -> v c <= w c) -> kop v c <= kop w c.
  Proof. intros H. apply rsum_le. intros s _. now apply tb_le. Qed.
  Lemma kop_scal q v c : kop (fun c => q * v c) c = q * kop v c.
  Proof. unfold kop, total_trust. rewrite <- rsum_scal. apply rsum_ext. intros s _. unfold total_belief. now rewrite rsum_scal. Qed.
  Lemma kop_ext v w c : (forall c, In c cl -> v c = w c) -> kop v c = kop w c.
  Proof. intros H. apply Rle_antisym; apply kop_le; intros; right; rewrite H; auto. Qed.
  Lemma kop_nonneg v c : (forall c, In c cl -> 0 <= v c) -> 0 <= kop v c.
  Proof. intros H. apply rsum_nonneg. intros s _. apply rsum_nonneg. intros x Hx. apply H. unfold claims_of in Hx. apply filter_In in Hx. tauto. Qed.
  Lemma kiter_nonneg p v c : (forall c, In c cl -> 0 <= v c) -> In c cl -> 0 <= kiter p v c.
  Proof. intros H. revert c. induction p as [|p IH]; intros c Hc; [now apply H|]. cbn [kiter]. now apply kop_nonneg. Qed.
  Lemma kiter_le p q v w c : (forall c, In c cl -> v c <= q * w c) -> In c cl -> kiter p v c <= q * kiter p w c.
  Proof.
    intros H. revert c. induction p as [|p IH]; intros c Hc; [now apply H|]. cbn [kiter]. rewrite <- kop_scal. now apply kop_le.
  Qed.
  Lemma kiter_add p q v : kiter (p + q) v = kiter p (kiter q v).
  Proof. induction p as [|p IH]; [reflexivity|]. cbn [Nat.add kiter]. now rewrite IH. Qed.
  Lemma kiter_ip p : forall y v, ip (kiter p y) v = ip y (kiter p v).
  Proof.
    induction p as [|p IH]; intros y v; [reflexivity|]. cbn [kiter]. rewrite <- ip_kop_sym, IH. f_equal. replace (kiter p (kop v)) with (kiter (p + 1) v) by (now rewrite kiter_add).
    rewrite Nat.add_1_r. reflexivity.
  Qed.

  Section Moments.
    Variable y : claim -> R.
    Let a k := ip y (kiter k y).
    Lemma a_add i j : ip (kiter i y) (kiter j y) = a (i + j).
    Proof. rewrite kiter_ip, <- kiter_add. reflexivity. Qed.
    Lemma a_log k : a (Datatypes.S k) * a (Datatypes.S k) <= a k * a (Datatypes.S (Datatypes.S k)).
    Proof.
      destruct (parity k) as [(j & ->)|(j & ->)].
      - replace (Datatypes.S (j + j)) with (j + Datatypes.S j)%nat by lia. replace (Datatypes.S (j + Datatypes.S j)) with (Datatypes.S j + Datatypes.S j)%nat by lia.
        rewrite <- !a_add. unfold ip. apply (cauchy_schwarz (kiter j y) (kiter (Datatypes.S j) y)).
      - assert (O : forall i i', a (Datatypes.S (i + i')) = rsum (fun s => total_belief ts (kiter i y) s * total_belief ts (kiter i' y) s) (sources ts)).
        { intros i i'. rewrite <- ip_kop. change (kop (kiter i' y)) with (kiter (Datatypes.S i') y). rewrite a_add. f_equal. lia. }
        replace (Datatypes.S (Datatypes.S (j + j))) with (Datatypes.S (j + Datatypes.S j)) by lia.
        replace (Datatypes.S (Datatypes.S (j + Datatypes.S j))) with (Datatypes.S (Datatypes.S j + Datatypes.S j)) by lia.
        rewrite !O. apply (cauchy_schwarz (fun s => total_belief ts (kiter j y) s) (fun s => total_belief ts (kiter (Datatypes.S j) y) s)).
    Qed.
    Lemma a_low k : 0 < a 0 -> 0 < a 1 -> a 0 * (a 1 / a 0) ^ k <= a k.
    Proof.
      intros P0 P1. assert (P : forall p, 0 < a p /\ 0 < a (Datatypes.S p)).
      { induction p as [|p [A B]]; [split; assumption|]. split; [exact B|]. pose proof (a_log p) as Z.
        apply Rnot_le_lt. intros L. assert (0 < a (Datatypes.S p) * a (Datatypes.S p)) by now apply Rmult_lt_0_compat. assert (a p * a (Datatypes.S (Datatypes.S p)) <= 0) by nra. lra. }
      exact (T_lower a (fun p => proj1 (P p)) a_log 0 k).
    Qed.
  End Moments.

  (** b is the limit of the normalised iterates of a positive start, for the eigenvalue la *)
  Section Rayleigh.
    Variables (u0 : claim -> R) (b : claim -> R) (la : R).
    Hypothesis Upos : forall c, In c cl -> 0 < u0 c.
    Hypothesis Mpos : forall k, 0 < rmax (kiter k u0) cl.
    Hypothesis Cv : forall c, In c cl -> Un_cv (fun k => kiter k u0 c / rmax (kiter k u0) cl) (b c).
    Hypothesis Eig : forall c, In c cl -> kop b c = la * b c.
    Hypothesis B1 : forall c, In c cl -> 0 <= b c <= 1.
    Hypothesis La : 0 <= la.
    Let m k := rmax (kiter k u0) cl.
    Lemma cl_nonempty : cl <> [].
    Proof. intros Z. pose proof (Mpos 0) as P. rewrite Z in P. cbn in P. lra. Qed.
    Lemma m_grow e : 0 < e -> eventually (fun k => m (Datatypes.S k) <= (la + e) * m k).
    Proof.
      intros He.
      assert (C2 : forall c, In c cl -> Un_cv (fun k => kop (fun c => kiter k u0 c / m k) c) (kop b c)).
      { intros c _. unfold kop, total_trust. apply (cv_rsum (fun k s => total_belief ts (fun c => kiter k u0 c / m k) s)). intros s _. unfold total_belief.
        apply (cv_rsum (fun k c => kiter k u0 c / m k)). intros x Hx. apply Cv. unfold claims_of in Hx. apply filter_In in Hx. tauto. }
      pose proof (eventually_all (fun c k => kop (fun c => kiter k u0 c / m k) c < la + e) cl) as G.
      refine (eventually_mono _ _ _ (G _)); clear G.
      - intros k H. unfold m at 1. destruct (rmax_In (kiter (Datatypes.S k) u0) cl cl_nonempty) as (c & Hc & ->). specialize (H c Hc). pose proof (Mpos k) as P. fold (m k) in P.
        cbn [kiter]. rewrite (kop_ext _ (fun c => m k * (kiter k u0 c / m k))) by (intros; field; lra). rewrite kop_scal. rewrite (Rmult_comm (la + e)). apply Rmult_le_compat_l; lra.
      - intros c Hc. destruct (C2 c Hc e He) as [N K]. exists N. intros k Hk. specialize (K k Hk). unfold R_dist in K. apply Rabs_def2 in K. rewrite (Eig c Hc) in K.
        pose proof (B1 c Hc). nra.
    Qed.
    Lemma rayleigh y : (forall c, In c cl -> 0 <= y c) -> ip y (kop y) <= la * ip y y.
    Proof.
      intros Hy. set (a k := ip y (kiter k y)). assert (A0 : a 0%nat = ip y y) by reflexivity. assert (A1 : a 1%nat = ip y (kop y)) by reflexivity.
      assert (P0 : 0 <= a 0%nat) by (apply rsum_nonneg; intros c Hc; apply Rmult_le_pos; now apply Hy).
      assert (P1 : 0 <= a 1%nat) by (apply rsum_nonneg; intros c Hc; apply Rmult_le_pos; [now apply Hy|now apply kop_nonneg]).
      rewrite <- A0, <- A1. apply Rnot_lt_le. intros Lt. assert (Q1 : 0 < a 1%nat) by (assert (0 <= la * a 0%nat) by (apply Rmult_le_pos; assumption); lra).
      assert (Q0 : 0 < a 0%nat).
      { destruct P0 as [P0|P0]; [exact P0|]. exfalso. pose proof (a_log y 0) as Z. change (a 1%nat * a 1%nat <= a 0%nat * a 2%nat) in Z. rewrite <- P0 in Z. nra. }
      set (q := a 1%nat / a 0%nat). assert (Hq : la < q) by (unfold q; apply Rmult_lt_reg_r with (a 0%nat); [exact Q0|]; unfold Rdiv; rewrite Rmult_assoc, Rinv_l; lra).
      set (e := (q - la) / 2). assert (He : 0 < e) by (unfold e; lra). set (rho := la + e). assert (Hr : 0 < rho < q) by (unfold rho, e; lra).
      destruct (m_grow e He) as [N K]. fold rho in K.
      assert (MG : forall k, m (N + k)%nat <= m N * rho ^ k).
      { induction k as [|k IH]; [rewrite Nat.add_0_r; cbn; lra|]. rewrite Nat.add_succ_r. pose proof (K (N + k)%nat ltac:(lia)) as Z. cbn [pow]. nra. }
      (* y <= B u0 *)
      set (B := rmax (fun c => y c / u0 c) cl). assert (YB : forall c, In c cl -> y c <= B * u0 c).
      { intros c Hc. pose proof (rmax_ge (fun c => y c / u0 c) cl c Hc) as Z. cbn beta in Z. fold B in Z. pose proof (Upos c Hc) as Pu.
        replace (y c) with (y c / u0 c * u0 c) by (field; lra). apply Rmult_le_compat_r; lra. }
      assert (B0 : 0 <= B).
      { destruct (rmax_In (fun c => y c / u0 c) cl cl_nonempty) as (c & Hc & Z). fold B in Z. rewrite Z. apply Rmult_le_pos; [now apply Hy|left; apply Rinv_0_lt_compat; now apply Upos]. }
      assert (AU : forall k, a k <= rsum y cl * B * m k).
      { intros k. unfold a, ip. rewrite Rmult_assoc, <- rsum_scal_r. apply rsum_le. intros c Hc. apply Rmult_le_compat_l; [now apply Hy|].
        eapply Rle_trans; [apply (kiter_le k B y u0 c YB Hc)|]. apply Rmult_le_compat_l; [exact B0|]. exact (rmax_ge (kiter k u0) cl c Hc). }
      set (D := rsum y cl * B * m N).
      assert (F : forall k, a 0%nat * q ^ N * q ^ k <= D * rho ^ k).
      { intros k. apply Rle_trans with (a (N + k)%nat).
        - rewrite Rmult_assoc, <- pow_add. exact (a_low y (N + k) Q0 Q1).
        - eapply Rle_trans; [apply AU|]. unfold D. rewrite !Rmult_assoc. apply Rmult_le_compat_l; [apply rsum_nonneg; exact Hy|]. apply Rmult_le_compat_l; [exact B0|]. apply MG. }
      set (x := q / rho). assert (X : 1 < x) by (unfold x; apply Rmult_lt_reg_r with rho; [lra|]; unfold Rdiv; rewrite Rmult_assoc, Rinv_l; lra).
      assert (AN : 0 < a 0%nat * q ^ N) by (apply Rmult_lt_0_compat; [exact Q0|apply pow_lt; lra]).
      destruct (Pow_x_infinity x ltac:(rewrite Rabs_right; lra) (D / (a 0%nat * q ^ N) + 1)) as [M H2]. specialize (H2 M (le_n M)). rewrite Rabs_right in H2 by (left; apply pow_lt; lra).
      pose proof (F M) as FM. assert (RM : 0 < rho ^ M) by (apply pow_lt; lra).
      assert (E : q ^ M = x ^ M * rho ^ M) by (rewrite <- Rpow_mult_distr; f_equal; unfold x; field; lra). rewrite E in FM.
      assert (G : a 0%nat * q ^ N * x ^ M <= D) by (apply Rmult_le_reg_r with (rho ^ M); lra).
      set (t := a 0%nat * q ^ N) in *. clearbody t. assert (G2 : x ^ M <= D / t) by (apply Rmult_le_reg_l with t; [exact AN|]; replace (t * (D / t)) with D by (field; lra); exact G). lra.
    Qed.
  End Rayleigh.
End Top.
