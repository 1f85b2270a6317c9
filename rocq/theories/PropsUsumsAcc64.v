(** C111: UnboundedSums in doubles ranks well-separated labels in the order of their exact scores. *)
From Coq Require Import ZArith Reals Lia Lra Permutation.
From Flocq Require Import Core IEEE754.BinarySingleNaN.
From Verif Require Import Base Num Sparse Spec SpecAlg Dataset DatasetProofs DatasetRep Iterators Algorithms Driver Ranking Rounds AlgRep AlgPack Results Float Accuracy PropsAccuracy Mono64 PropsData PropsIter PropsRun PropsAlg PropsResult PropsFloat PropsVote64
  PropsAvlog64 PropsUsums64 PropsOrdStop64 PropsUsumsStop64 PropsCoherence Close PropsInvestAcc64.
Local Open Scope R_scope.

(** ** Specification: the relative error of a score after k rounds, for NS sources and NC claims *)
Definition usums_error (NS NC k : nat) : R := INR ((k + 1) * (NS + NC + 1)) / 2 ^ 51.
(** u lies so far below v that errors of e times either cannot reverse them *)
Definition far (e u v : R) : Prop := u * (1 + e) < v * (1 - e).
(** NS and NC are at most 2^m, and after k rounds the doubles are far from overflow and underflow whatever the claims *)
Definition in_range (m : Z) (NS NC k : nat) : Prop :=
  (0 <= m <= 53)%Z /\ (Z.of_nat NS <= 2 ^ m)%Z /\ (Z.of_nat NC <= 2 ^ m)%Z /\ ((2 * m + 10) * Z.of_nat k + 2 * m <= 900)%Z /\ usums_error NS NC k <= 1.

(** ** Dense ranks *)
Lemma rrank_of_dense {A} (rk : A -> nat) (l : list A) : (forall x n, In x l -> (n < rk x)%nat -> exists y, In y l /\ rk y = n) -> forall x, In x l -> rrank (fun y => INR (rk y)) l x = rk x.
Proof.
  intros H x Hx. unfold rrank. transitivity (length (map INR (seq 0 (rk x)))); [|now rewrite map_length, seq_length].
  apply Permutation_length, NoDup_Permutation; [apply NoDup_nodup|apply FinFun.Injective_map_NoDup; [intros a b E; now apply INR_eq|apply seq_NoDup]|].
  intros v. rewrite nodup_In, filter_In, !in_map_iff. split.
  - intros ((z & <- & Hz) & Lt). exists (rk z). split; [reflexivity|]. apply in_seq. destruct (rltb_spec (INR (rk z)) (INR (rk x))) as [Q|]; [|discriminate]. apply INR_lt in Q. lia.
  - intros (n & <- & Hn). apply in_seq in Hn. destruct (H x n Hx ltac:(lia)) as (z & Hz & <-). split; [eauto|]. apply rltb_true, lt_INR. lia.
Qed.
Lemma far_lt e u v r w q : 0 < q -> far e u v -> accurate e (u / q) r -> accurate e (v / q) w -> Bltb r w = true.
Proof.
  intros Pq H (Fr & Hr) (Fw & Hw). rewrite (ltb64 _ _ _ _ (isf_self _ Fr) (isf_self _ Fw)). apply rltb_true. apply Rabs_le_inv in Hr, Hw. unfold far in H.
  apply (Rmult_lt_compat_r (/ q)) in H; [|now apply Rinv_0_lt_compat]. unfold Rdiv in *. set (h := / q) in *. nra.
Qed.

Section C111.
  Context {S V W : Type} {ES : Eqb S} {EV : Eqb V} {EW : Eqb W}.
  Variable ts : list (S * V * W).
  Notation claim := (V * W)%type.
  Notation NS := (length (sources ts)).
  Notation NC := (length (claims ts)).
  Notation scores64 := (@scores64 S V W).
  Notation plain := (rounds (plain_step ts)).
  Variable m : Z.
  Hypothesis Hm : (0 <= m <= 53)%Z.
  Hypothesis Hs : (Z.of_nat NS <= 2 ^ m)%Z.
  Hypothesis Hc : (Z.of_nat NC <= 2 ^ m)%Z.

  Lemma dbl_count {A} (l : list A) : l <> [] -> (Z.of_nat (length l) <= 2 ^ m)%Z -> dbl 0 m 0 (how_many l) (INR (length l)).
  Proof.
    intros Hl Hn. assert (Z.of_nat (length l) <= 2 ^ 53)%Z by (etransitivity; [exact Hn|apply Z.pow_le_mono_r; lia]). assert (P : (1 <= length l)%nat) by (destruct l; [congruence|cbn; lia]).
    exists (INR (length l)). split; [unfold how_many; rewrite INR_IZR_INZ; apply ofZ64_isf; lia|]. assert (Q : 1 <= INR (length l)) by (apply (le_INR 1); exact P). split; [|apply close_refl; lra].
    split; [exact Q|]. rewrite INR_IZR_INZ, <- IZR_Zpower by lia. apply IZR_le. exact Hn.
  Qed.
  Lemma len_claims s : (length (claims_of ts s) <= NC)%nat. Proof. apply sublist_len. Qed.
  Lemma len_supp c : (length (supporters ts c) <= NS)%nat. Proof. apply sublist_len. Qed.
  Lemma len_riv c : (length (rivals ts c) <= NC)%nat. Proof. apply sublist_len. Qed.

  (** the prior beliefs *)
  Lemma prior_near p g y : prior_in_doubles ts p = Some g -> prior_spec ts p = Some y -> forall c, In c (claims ts) -> dbl (- (2 * m + 1)) (m + 1) (INR NC + 1) (g c) (y c).
  Proof.
    pose proof (pos_INR NC) as N0. assert (Wd : forall lo hi K v z, (- (2 * m + 1) <= lo)%Z -> (hi <= m + 1)%Z -> K <= INR NC + 1 -> dbl lo hi K v z -> dbl (- (2 * m + 1)) (m + 1) (INR NC + 1) v z) by (intros lo hi K v z H1 H2 H3; now apply dbl_wide).
    assert (Su : forall c, In c (claims ts) -> dbl 0 m 0 (how_many (supporters ts c)) (n_supporters ts c)).
    { intros c Hcc. apply dbl_count; [now apply some_supp|]. pose proof (len_supp c). lia. }
    destruct p; cbn [prior_in_doubles prior_spec]; intros [= <-] [= <-]; intros c Hcc.
    - assert (T : dbl 1 1 0 (ofZ64 2) 2). { exists 2. split; [apply (ofZ64_isf 2); lia|]. split; [change (bpow radix2 1) with 2; lra|apply close_refl; lra]. }
      pose proof (dbl_div _ _ _ _ _ _ _ _ _ _ dbl_one T ltac:(lia) ltac:(lia)) as Q. refine (Wd _ _ _ _ _ _ _ _ Q); [lia|lia|lra].
    - assert (T : dbl 0 (m + m) (0 + INR (length (rivals ts c))) (sum64 (fun c' => how_many (supporters ts c')) (rivals ts c)) (rsum (n_supporters ts) (rivals ts c))).
      { unfold sum64. apply (dbl_sum_m m 0 m 0); [exact Hm|lia|lia|now apply some_riv|pose proof (len_riv c); lia|]. intros c' Hc'. apply Su. unfold rivals in Hc'. apply filter_In in Hc'. tauto. }
      pose proof (dbl_div _ _ _ _ _ _ _ _ _ _ (Su c Hcc) T ltac:(lia) ltac:(lia)) as Q. pose proof (le_INR _ _ (len_riv c)). refine (Wd _ _ _ _ _ _ _ _ Q); [lia|lia|lra].
    - refine (Wd _ _ _ _ _ _ _ _ (Su c Hcc)); [lia|lia|lra].
    - assert (T : dbl 0 m 0 (how_many (rivals ts c)) (INR (length (rivals ts c)))) by (apply dbl_count; [now apply some_riv|pose proof (len_riv c); lia]).
      pose proof (dbl_div _ _ _ _ _ _ _ _ _ _ dbl_one T ltac:(lia) ltac:(lia)) as Q. refine (Wd _ _ _ _ _ _ _ _ Q); [lia|lia|lra].
  Qed.

  (** dividing by 1000, or not *)
  Lemma near_by {A} (l : list A) lo hi K (h : A -> b64) (q : A -> R) : (-1000 <= lo)%Z -> (hi <= 1000)%Z -> (forall x, In x l -> dbl lo hi K (h x) (q x)) ->
    exists i : nat, forall x, In x l -> dbl (lo - 10) hi (K + 1) (by_1000 l h x) (q x / 1000 ^ i).
  Proof.
    intros L1 L2 H. unfold by_1000. destruct (existsb _ l).
    - exists 1%nat. intros x Hx. assert (T : dbl 9 10 0 (ofZ64 1000) 1000). { exists 1000. split; [apply (ofZ64_isf 1000); lia|]. split; [change (bpow radix2 9) with 512; change (bpow radix2 10) with 1024; lra|apply close_refl; lra]. }
      pose proof (dbl_div _ _ _ _ _ _ _ _ _ _ (H x Hx) T ltac:(lia) ltac:(lia)) as Q. rewrite pow_1. refine (dbl_wide _ _ _ _ _ _ _ _ _ _ _ Q); [lia|lia|lra].
    - exists 0%nat. intros x Hx. replace (q x / 1000 ^ 0) with (q x) by (cbn; field). refine (dbl_wide _ _ _ _ _ _ _ _ _ _ _ (H x Hx)); [lia|lia|lra].
  Qed.

  (** one round *)
  Lemma near_round lo hi K (x : scores64) (beta : claim -> R) : (-990 <= lo)%Z -> (hi + m <= 900)%Z -> (forall c, In c (claims ts) -> dbl lo hi K (snd x c) (beta c)) ->
    (exists i : nat, forall s, In s (sources ts) -> dbl (lo - 10) (hi + 2 * m) (K + INR NC + INR NS + 1) (fst (usums64 ts x) s) (total_belief ts beta s / 1000 ^ i)) /\
    (exists i : nat, forall c, In c (claims ts) -> dbl (lo - 10) (hi + 2 * m) (K + INR NC + INR NS + 1) (snd (usums64 ts x) c) (total_trust ts (total_belief ts beta) c / 1000 ^ i)).
  Proof.
    intros L1 L2 H. pose proof (pos_INR NS) as P1. pose proof (pos_INR NC) as P2.
    assert (T : forall s, In s (sources ts) -> dbl lo (hi + m) (K + INR NC) (new_trust ts x s) (total_belief ts beta s)).
    { intros s Hss. apply (dbl_wide lo (hi + m) lo (hi + m) (K + INR (length (claims_of ts s)))); [lia|lia|apply Rplus_le_compat_l, le_INR, len_claims|].
      apply (dbl_sum_m m lo hi K); [exact Hm|lia|lia|now apply some_claim|pose proof (len_claims s); lia|]. intros c Hcc. apply H. unfold claims_of in Hcc. apply filter_In in Hcc. tauto. }
    assert (B : forall c, In c (claims ts) -> dbl lo (hi + m + m) (K + INR NC + INR NS) (sum64 (new_trust ts x) (supporters ts c)) (total_trust ts (total_belief ts beta) c)).
    { intros c Hcc. apply (dbl_wide lo (hi + m + m) lo (hi + m + m) (K + INR NC + INR (length (supporters ts c)))); [lia|lia|apply Rplus_le_compat_l, le_INR, len_supp|].
      apply (dbl_sum_m m lo (hi + m) (K + INR NC)); [exact Hm|lia|lia|now apply some_supp|pose proof (len_supp c); lia|]. intros s Hss. apply T. unfold supporters in Hss. apply filter_In in Hss. tauto. }
    cbn [usums64 fst snd]. split.
    - destruct (near_by (sources ts) lo (hi + m) _ _ _ ltac:(lia) ltac:(lia) T) as (i & Hi). exists i. intros s Hss. refine (dbl_wide _ _ _ _ _ _ _ _ _ _ _ (Hi s Hss)); [lia|lia|lra].
    - destruct (near_by (claims ts) lo (hi + m + m) _ _ _ ltac:(lia) ltac:(lia) B) as (i & Hi). exists i. intros s Hss. refine (dbl_wide _ _ _ _ _ _ _ _ _ _ _ (Hi s Hss)); [lia|lia|lra].
  Qed.
  Lemma step_scal (beta : claim -> R) (q : R) : (forall s, total_belief ts (fun c => beta c / q) s = total_belief ts beta s / q) /\ (forall c, total_trust ts (total_belief ts (fun c => beta c / q)) c = total_trust ts (total_belief ts beta) c / q).
  Proof.
    assert (E : forall s, total_belief ts (fun c => beta c / q) s = total_belief ts beta s / q).
    { intros s. unfold total_belief, Rdiv. rewrite (rsum_ext _ (fun c => / q * beta c)) by (intros; ring). rewrite rsum_scal. ring. }
    split; [exact E|]. intros c. unfold total_trust. rewrite (rsum_ext _ (fun s => / q * total_belief ts beta s)) by (intros s _; rewrite E; unfold Rdiv; ring). rewrite rsum_scal. unfold Rdiv. ring.
  Qed.

  Variables (g : claim -> b64) (y : claim -> R) (p : prior).
  Hypothesis Eg : prior_in_doubles ts p = Some g.
  Hypothesis Ey : prior_spec ts p = Some y.
  Notation x64 := (rounds64 ts ((fun _ => ofZ64 0), g)).
  Notation xR := (plain ((fun _ => 0), y)).
  Notation KK k := (INR ((k + 1) * (NS + NC + 1))).
  Lemma near_rounds k : ((2 * m + 10) * Z.of_nat k + 2 * m <= 900)%Z ->
    (exists i : nat, forall s, In s (sources ts) -> (k = 0%nat /\ fst (x64 k) s = ofZ64 0 /\ fst (xR k) s = 0) \/ dbl (- (2 * m + 1 + 10 * Z.of_nat k)) (m + 1 + 2 * m * Z.of_nat k) (KK k) (fst (x64 k) s) (fst (xR k) s / 1000 ^ i)) /\
    (exists i : nat, forall c, In c (claims ts) -> dbl (- (2 * m + 1 + 10 * Z.of_nat k)) (m + 1 + 2 * m * Z.of_nat k) (KK k) (snd (x64 k) c) (snd (xR k) c / 1000 ^ i)).
  Proof.
    induction k as [|k IH]; intros Hk.
    - split; exists 0%nat; [intros s _; left; auto|]. intros c Hcc. cbn [rounds64 rounds snd]. replace (y c / 1000 ^ 0) with (y c) by (cbn; field). pose proof (prior_near p g y Eg Ey c Hcc) as Q.
      refine (dbl_wide _ _ _ _ _ _ _ _ _ _ _ Q); [lia|lia|]. pose proof (pos_INR NS). rewrite Nat.add_0_l, Nat.mul_1_l, !plus_INR. change (INR 1) with 1. lra.
    - destruct IH as (_ & i & Hi); [lia|]. destruct (near_round (- (2 * m + 1 + 10 * Z.of_nat k)) (m + 1 + 2 * m * Z.of_nat k) _ (x64 k) (fun c => snd (xR k) c / 1000 ^ i) ltac:(lia) ltac:(lia) Hi) as ((j1 & J1) & (j2 & J2)).
      destruct (step_scal (snd (xR k)) (1000 ^ i)) as (E1 & E2). assert (Kq : KK k + INR NC + INR NS + 1 <= KK (Datatypes.S k)).
      { replace ((Datatypes.S k + 1) * (NS + NC + 1))%nat with ((k + 1) * (NS + NC + 1) + (NS + NC + 1))%nat by lia. rewrite plus_INR, (plus_INR (NS + NC) 1), (plus_INR NS NC). change (INR 1) with 1. lra. }
      split; [exists (i + j1)%nat|exists (i + j2)%nat]; intros z Hz; [right; specialize (J1 z Hz); rewrite E1 in J1|specialize (J2 z Hz); rewrite E2 in J2].
      + cbn [rounds64 rounds]. replace (fst (plain_step ts (xR k)) z / 1000 ^ (i + j1)) with (total_belief ts (snd (xR k)) z / 1000 ^ i / 1000 ^ j1) by (cbn [plain_step fst]; rewrite pow_add; field; split; apply pow_nonzero; lra).
        refine (dbl_wide _ _ _ _ _ _ _ _ _ _ _ J1); [lia|lia|exact Kq].
      + cbn [rounds64 rounds]. replace (snd (plain_step ts (xR k)) z / 1000 ^ (i + j2)) with (total_trust ts (total_belief ts (snd (xR k))) z / 1000 ^ i / 1000 ^ j2) by (cbn [plain_step snd]; rewrite pow_add; field; split; apply pow_nonzero; lra).
        refine (dbl_wide _ _ _ _ _ _ _ _ _ _ _ J2); [lia|lia|exact Kq].
  Qed.
  (** C111 (scores).  After k rounds the trust scores, and the belief scores, are within the stated relative error of those of the plain recurrence
      of the reals, all divided by the same power of 1000. *)
  Theorem C111_usums_scores k : ((2 * m + 10) * Z.of_nat k + 2 * m <= 900)%Z -> usums_error NS NC k <= 1 ->
    (exists i : nat, forall s, In s (sources ts) -> accurate (usums_error NS NC k) (fst (xR k) s / 1000 ^ i) (fst (x64 k) s)) /\
    (exists i : nat, forall c, In c (claims ts) -> accurate (usums_error NS NC k) (snd (xR k) c / 1000 ^ i) (snd (x64 k) c)).
  Proof.
    intros Hk He. assert (Ee : usums_error NS NC k = 2 * (KK k * unit52)).
    { unfold usums_error. rewrite unit52_eq. replace (2 ^ 52) with (2 * 2 ^ 51) by (cbn; ring). field. }
    rewrite Ee in *. clear Ee. assert (Hu : KK k * unit52 <= 1 / 2) by lra.
    destruct (near_rounds k Hk) as ((i & Hi) & (j & Hj)). split; [exists i|exists j]; intros z Hz.
    - destruct (Hi z Hz) as [(_ & -> & ->)|(r & Hr & _ & C)]; [|exact (close_accurate _ _ _ r Hu Hr C)]. split; [reflexivity|]. unfold Rdiv. rewrite Rmult_0_l, Rmult_0_r. replace (B2R64 (ofZ64 0) - 0) with 0 by (destruct zero64 as [_ ->]; ring). try (rewrite Rabs_R0; apply Rle_refl).
    - destruct (Hj z Hz) as (r & Hr & _ & C). exact (close_accurate _ _ _ r Hu Hr C).
  Qed.
End C111.

Section Ranks.
  Context {S V W : Type} {ES : Eqb S} {EV : Eqb V} {EW : Eqb W}.
  Variable L : libm.
  Notation F := (B64 L).
  Notation data := (dataset S V W F).
  Notation claim := (V * W)%type.
  Variables (b : bool) (f : option (V -> W -> W -> option b64)) (ts : list (S * V * W)) (d : data).
  Hypothesis Hb : build (F:=F) b f ts = Ok d.
  Notation NS := (length (sources ts)).
  Notation NC := (length (claims ts)).
  Notation plain := (rounds (plain_step ts)).
  Notation before := (fun (A : Type) (rank : A -> option b64) (x z : A) => exists n n' : nat, rank x = Some (ofZ64 (Z.of_nat n)) /\ rank z = Some (ofZ64 (Z.of_nat n')) /\ (n < n')%nat).

  Lemma dense_before {A} (l : list A) (h : A -> b64) (rank : A -> option b64) x z : dense_ranks l (fun a => Some (h a)) rank -> In x l -> In z l -> Bltb (h x) (h z) = true -> before A rank x z.
  Proof.
    intros (rk & D1 & D2 & _) Hx Hz B. destruct (D1 x Hx) as (_ & _ & _ & E1). destruct (D1 z Hz) as (_ & _ & _ & E2). exists (rk x), (rk z). split; [exact E1|]. split; [exact E2|].
    rewrite (D2 x z _ _ Hx Hz eq_refl eq_refl) in B. now apply Nat.ltb_lt.
  Qed.
  Lemma dense_exact {A} (l : list A) (h : A -> b64) (q : A -> R) (rank : A -> option b64) : dense_ranks l (fun a => Some (h a)) rank ->
    (forall x z, In x l -> In z l -> (Bltb (h x) (h z) = true <-> q x < q z)) -> forall x, In x l -> rank x = Some (ofZ64 (Z.of_nat (rrank q l x))).
  Proof.
    intros (rk & D1 & D2 & D3) H x Hx. destruct (D1 x Hx) as (_ & _ & _ & E1). rewrite E1. do 3 f_equal. rewrite <- (rrank_of_dense rk l D3 x Hx). apply rrank_incr; [|exact Hx].
    intros u v Hu Hv. rewrite <- (H u v Hu Hv), (D2 u v _ _ Hu Hv eq_refl eq_refl), Nat.ltb_lt. split; [apply INR_lt|apply lt_INR].
  Qed.


  Lemma few_labels k : usums_error NS NC k <= 1 -> (Z.of_nat NS < 2 ^ 53)%Z /\ (Z.of_nat NC < 2 ^ 53)%Z.
  Proof.
    intros He. assert (Q : (Z.of_nat ((k + 1) * (NS + NC + 1)) <= 2 ^ 51)%Z).
      { apply le_IZR. rewrite <- INR_IZR_INZ. unfold usums_error, Rdiv in He. assert (P : 0 < 2 ^ 51) by (apply pow_lt; lra). apply (Rmult_le_compat_r (2 ^ 51)) in He; [|lra]. rewrite Rmult_assoc, Rinv_l, Rmult_1_r, Rmult_1_l in He by lra.
        change (IZR (2 ^ 51)) with (IZR (Z.pow 2 (Z.of_nat 51))). rewrite <- pow_IZR. exact He. }
      change (2 ^ 51)%Z with 2251799813685248%Z in Q. change (2 ^ 53)%Z with 9007199254740992%Z. nia.
  Qed.
  Lemma ran clock fuel p t n c lg r y k : fst (run (F:=F) clock fuel (AObj UnboundedSums p (IOrd t n c) lg) d) = Ok r -> prior_spec ts p = Some y -> r_iterations r = Some k -> usums_error NS NC k <= 1 ->
    exists g, prior_in_doubles ts p = Some g /\ let x := rounds64 ts ((fun _ => ofZ64 0), g) k in
      dense_ranks (sources ts) (fun s => Some (fst x s)) (trust_of r) /\ dense_ranks (claims ts) (fun a => Some (snd x a)) (belief_of r).
  Proof.
    intros H Ep Ek He. assert (Eg : exists g, prior_in_doubles ts p = Some g) by (destruct p; cbn in Ep |- *; try discriminate; eauto). destruct Eg as (g & Eg). exists g. split; [exact Eg|].
    assert (NE : ts <> []). { intros E0. destruct (proj1 (C26_empty (F:=F) b f ts d Hb clock fuel (AObj UnboundedSums p (IOrd t n c) lg)) E0) as (Q & _). rewrite Q in H. discriminate. }
    pose proof (few_labels k He) as Few.
    pose proof (C109_usums_stops64 L b f ts d Hb (proj1 Few) (proj2 Few) NE clock fuel p t n c lg g Eg) as Q. cbv zeta in Q. rewrite H in Q. destruct Q as (k' & Ek' & _ & _ & _ & Q). rewrite Ek in Ek'. injection Ek' as <-. exact Q.
  Qed.

  (** C111 (order).  If UnboundedSums returns after k rounds, then a label whose exact score (after k rounds of the plain recurrence) is far below
      that of another is ranked below it. *)
  Theorem C111_usums_order clock fuel p t n c lg r y k m : fst (run (F:=F) clock fuel (AObj UnboundedSums p (IOrd t n c) lg) d) = Ok r -> prior_spec ts p = Some y ->
    r_iterations r = Some k -> in_range m NS NC k ->
    let x := plain ((fun _ => 0), y) k in let e := usums_error NS NC k in
    (forall s s', In s (sources ts) -> In s' (sources ts) -> far e (fst x s) (fst x s') -> before S (trust_of r) s s') /\
    (forall a a', In a (claims ts) -> In a' (claims ts) -> far e (snd x a) (snd x a') -> before claim (belief_of r) a a').
  Proof.
    intros H Ep Ek (Hm & H1 & H2 & H3 & H4) x e. destruct (ran _ _ _ _ _ _ _ _ _ _ H Ep Ek H4) as (g & Eg & D1 & D2).
    destruct (C111_usums_scores ts m Hm H1 H2 g y p Eg Ep k H3 H4) as ((i & Hi) & (j & Hj)). split; intros u v Hu Hv Hf.
    - apply (dense_before _ _ _ u v D1 Hu Hv). eapply (far_lt e _ _ _ _ (1000 ^ i)); [apply pow_lt; lra|exact Hf|now apply Hi|now apply Hi].
    - apply (dense_before _ _ _ u v D2 Hu Hv). eapply (far_lt e _ _ _ _ (1000 ^ j)); [apply pow_lt; lra|exact Hf|now apply Hj|now apply Hj].
  Qed.

  (** the exact scores are far apart, except those of sources with the same claims, and of claims with the same sources *)
  Definition well_separated (e : R) (x : @rscores S V W) : Prop :=
    (forall s s', In s (sources ts) -> In s' (sources ts) -> claims_of ts s = claims_of ts s' \/ far e (fst x s) (fst x s') \/ far e (fst x s') (fst x s)) /\
    (forall a a', In a (claims ts) -> In a' (claims ts) -> supporters ts a = supporters ts a' \/ far e (snd x a) (snd x a') \/ far e (snd x a') (snd x a)).
  Lemma far_order {A} (e q : R) (h : A -> b64) (x : A -> R) (l : list A) : 0 < e -> 0 < q -> (forall u, In u l -> accurate e (x u / q) (h u)) -> forall u v, In u l -> In v l ->
    (h u = h v /\ x u = x v) \/ far e (x u) (x v) \/ far e (x v) (x u) -> Bltb (h u) (h v) = true <-> x u < x v.
  Proof.
    intros Pe Pq H u v Hu Hv Hc.
    assert (N : forall u, In u l -> 0 <= x u). { intros w Hw. destruct (H w Hw) as (_ & Q). assert (N : 0 <= e * (x w / q)) by (eapply Rle_trans; [apply Rabs_pos|exact Q]). pose proof (Rinv_0_lt_compat q Pq) as P. unfold Rdiv in N. apply (Rmult_le_reg_l (e * / q)); [now apply Rmult_lt_0_compat|]. rewrite Rmult_0_r. replace (e * / q * x w) with (e * (x w * / q)) by ring. exact N. }
    pose proof (N u Hu) as Nu. pose proof (N v Hv) as Nv. assert (Mu : 0 <= e * x u) by (apply Rmult_le_pos; lra). assert (Mv : 0 <= e * x v) by (apply Rmult_le_pos; lra). destruct (H u Hu) as (Fu & _). destruct (H v Hv) as (Fv & _). pose proof (ltb64 _ _ _ _ (isf_self _ Fu) (isf_self _ Fv)) as B. destruct Hc as [(E1 & E2)|[Q|Q]].
    - rewrite B, E1, E2. destruct (rltb_spec (B2R64 (h v)) (B2R64 (h v))); [lra|]. split; [discriminate|lra].
    - pose proof (far_lt e _ _ _ _ q Pq Q (H u Hu) (H v Hv)) as T. rewrite T. split; [|reflexivity]. intros _. unfold far in Q. lra.
    - pose proof (far_lt e _ _ _ _ q Pq Q (H v Hv) (H u Hu)) as T. rewrite (ltb64 _ _ _ _ (isf_self _ Fv) (isf_self _ Fu)) in T. rewrite B. unfold far in Q.
      destruct (rltb_spec (B2R64 (h v)) (B2R64 (h u))); [|discriminate]. destruct (rltb_spec (B2R64 (h u)) (B2R64 (h v))); [lra|]. split; [discriminate|]. intros. nra.
  Qed.

  (** C111 (ranks).  If moreover the exact scores are well separated, the ranks reported are those of the exact scores: the number of
      different exact scores below. *)
  Theorem C111_usums_ranks clock fuel p t n c lg r y k m : fst (run (F:=F) clock fuel (AObj UnboundedSums p (IOrd t n c) lg) d) = Ok r -> prior_spec ts p = Some y ->
    r_iterations r = Some (Datatypes.S k) -> in_range m NS NC (Datatypes.S k) -> 
    let x := plain ((fun _ => 0), y) (Datatypes.S k) in well_separated (usums_error NS NC (Datatypes.S k)) x ->
    (forall s, In s (sources ts) -> trust_of r s = Some (ofZ64 (Z.of_nat (rrank (fst x) (sources ts) s)))) /\
    (forall a, In a (claims ts) -> belief_of r a = Some (ofZ64 (Z.of_nat (rrank (snd x) (claims ts) a)))).
  Proof.
    intros H Ep Ek (Hm & H1 & H2 & H3 & H4) x (W1 & W2). destruct (ran _ _ _ _ _ _ _ _ _ _ H Ep Ek H4) as (g & Eg & D1 & D2).
    destruct (C111_usums_scores ts m Hm H1 H2 g y p Eg Ep _ H3 H4) as ((i & Hi) & (j & Hj)).
    assert (Pe : 0 < usums_error NS NC (Datatypes.S k)) by (unfold usums_error; apply Rdiv_lt_0_compat; [apply lt_0_INR; lia|apply pow_lt; lra]). split.
    - apply (dense_exact _ _ _ _ D1). intros u v Hu Hv. apply (far_order _ (1000 ^ i) _ (fst x) (sources ts) Pe ltac:(apply pow_lt; lra) Hi u v Hu Hv). destruct (W1 u v Hu Hv) as [Q|Q]; [left|now right].
      split; cbn [rounds64 usums64 x rounds plain_step fst]; [unfold by_1000, new_trust|unfold total_belief]; now rewrite Q.
    - apply (dense_exact _ _ _ _ D2). intros u v Hu Hv. apply (far_order _ (1000 ^ j) _ (snd x) (claims ts) Pe ltac:(apply pow_lt; lra) Hj u v Hu Hv). destruct (W2 u v Hu Hv) as [Q|Q]; [left|now right].
      split; cbn [rounds64 usums64 x rounds plain_step snd]; [unfold by_1000|unfold total_trust]; now rewrite Q.
  Qed.
End Ranks.

Section Winner.
  Context {S V W : Type} {ES : Eqb S} {EV : Eqb V} {EW : Eqb W}.
  Variable L : libm.
  Notation F := (B64 L).
  Notation data := (dataset S V W F).
  Notation claim := (V * W)%type.
  Variables (b : bool) (f : option (V -> W -> W -> option b64)) (ts : list (S * V * W)) (d : data).
  Hypothesis Hb : build (F:=F) b f ts = Ok d.
  Notation NS := (length (sources ts)).
  Notation NC := (length (claims ts)).
  Notation plain := (rounds (plain_step ts)).
  (** the ranks are doubles, one per label *)
  Lemma ranks_reported clock fuel p t n c lg r k : fst (run (F:=F) clock fuel (AObj UnboundedSums p (IOrd t n c) lg) d) = Ok r -> r_iterations r = Some k -> usums_error NS NC k <= 1 ->
    exists u v : _ -> nat, reports ts r (fun s : S => ofZ64 (Z.of_nat (u s))) (fun a : claim => ofZ64 (Z.of_nat (v a))).
  Proof.
    intros H Ek He. destruct (run (F:=F) clock fuel (AObj UnboundedSums p (IOrd t n c) lg) d) as [q o'] eqn:Er. cbn [fst] in H. subst q.
    destruct (run_cases (F:=F) b f ts d Hb clock fuel UnboundedSums p (IOrd t n c) lg r o' Er) as (NE & x0 & k' & it' & E0 & _ & x & Ex & ->).
    pose proof (few_labels ts k He) as (F1 & F2). pose proof (start_is L b f ts d Hb F1 F2 p) as St. destruct (prior_in_doubles ts p) as [g|]; [|subst p; discriminate E0].
    destruct St as (E1 & Fine). assert (X0 : x0 = vecs L ts ((fun _ => ofZ64 0), g)) by (rewrite E1 in E0; congruence). clear E0. destruct (scores_are L b f ts d Hb NE _ k' Fine) as (Es & Hf). rewrite X0 in Ex. rewrite Es in Ex. set (xk := rounds64 ts ((fun _ => ofZ64 0), g) k') in *.
    destruct (ranked L (fst xk) (sources ts) _ (proj1 Hf)) as (rk1 & Er1 & _). destruct (ranked L (snd xk) (claims ts) _ (proj2 Hf)) as (rk2 & Er2 & _).
    assert (Ef : x = ((map (fun x => ofZ64 (Z.of_nat (rk1 x))) (sources ts) : vec F), (map (fun x => ofZ64 (Z.of_nat (rk2 x))) (claims ts) : vec F))).
    { destruct it'; cbn [final] in Ex; try discriminate Ex. cbn [vecs fst snd] in Ex. change (match get_ranking_vector (F:=F) (map (fst xk : S -> F) (sources ts)), get_ranking_vector (F:=F) (map (snd xk : claim -> F) (claims ts)) with Some t, Some b => Ok (t, b) | _, _ => Err KeyErr end = Ok x) in Ex.
      rewrite Er1, Er2 in Ex. injection Ex as <-. reflexivity. }
    subst x. exists rk1, rk2. apply (reports64 L); reflexivity.
  Qed.
  (** C111 (winner).  If the exact score of a claim is far above those of all other claims about the same variable, its value is the one most
      believed according to the doubles. *)
  Theorem C111_usums_winner clock fuel p t n c lg r y k m a : fst (run (F:=F) clock fuel (AObj UnboundedSums p (IOrd t n c) lg) d) = Ok r -> prior_spec ts p = Some y ->
    r_iterations r = Some k -> in_range m NS NC k -> In a (claims ts) ->
    (forall a', In a' (rivals ts a) -> a' <> a -> far (usums_error NS NC k) (snd (plain ((fun _ => 0), y) k) a') (snd (plain ((fun _ => 0), y) k) a)) ->
    get_most_believed_values (F:=F) r (fst a) = Ok [snd a].
  Proof.
    intros H Ep Ek (Hm & H1 & H2 & H3 & He) Ha Far. destruct (ran L b f ts d Hb _ _ _ _ _ _ _ _ _ _ H Ep Ek He) as (g & Eg & _ & (rk & D1 & D2 & D3)).
    destruct (C111_usums_scores ts m Hm H1 H2 g y p Eg Ep k H3 He) as (_ & (i & Hi)).
    destruct (ranks_reported _ _ _ _ _ _ _ _ _ H Ek He) as (u & v & (_ & Rb & _ & _ & Nm)). pose proof (few_labels ts k He) as (_ & F2).
    assert (Val : forall a', In a' (claims ts) -> belief_of r a' = Some (ofZ64 (Z.of_nat (rk a'))) /\ isf (ofZ64 (Z.of_nat (rk a'))) (INR (rk a'))).
    { intros a' Hc'. destruct (D1 a' Hc') as (_ & _ & _ & Q). split; [exact Q|]. pose proof (dense_bound _ rk D3 a' Hc'). rewrite INR_IZR_INZ. apply ofZ64_isf; lia. }
    assert (Hlt : forall a', In a' (rivals ts a) -> a' <> a -> Bltb (ofZ64 (Z.of_nat (rk a'))) (ofZ64 (Z.of_nat (rk a))) = true).
    { intros a' Hr Na. assert (Hc' : In a' (claims ts)) by (unfold rivals in Hr; apply filter_In in Hr; tauto). rewrite (ltb64 _ _ _ _ (proj2 (Val a' Hc')) (proj2 (Val a Ha))). apply rltb_true, lt_INR, Nat.ltb_lt. rewrite <- (D2 a' a _ _ Hc' Ha eq_refl eq_refl).
      apply (far_lt (usums_error NS NC k) _ _ _ _ (1000 ^ i) ltac:(apply pow_lt; lra) (Far a' Hr Na)); now apply Hi. }
    pose proof (proj1 (Val a Ha)) as Ec. unfold belief_of in Ec. destruct a as [x w]. cbn [fst snd] in *. destruct (dget (r_belief r) x) as [q|] eqn:Ev; [|discriminate]. specialize (Nm x q Ev).
    assert (In_m : forall w' z, dget q w' = Some z -> In (x, w') (claims ts) /\ z = ofZ64 (Z.of_nat (rk (x, w')))).
    { intros w' z Hz. pose proof (Rb (x, w')) as E'. unfold belief_of in E'. cbn [fst snd] in E'. rewrite Ev, Hz in E'. destruct (mem (x, w') (claims ts)) eqn:M; [|discriminate]. apply mem_In in M. split; [exact M|].
      pose proof (proj1 (Val _ M)) as E2. unfold belief_of in E2. cbn [fst snd] in E2. rewrite Ev, Hz in E2. now injection E2. }
    destruct (C17_most_believed_iff (F:=F) (good := fun y : b64 => is_nan y = false) r x q Ev) as (l & El & Nl & ND & Hl).
    - intros ->. discriminate.
    - exact Nm.
    - intros w' z Hz. destruct (In_m w' z) as (Hi' & ->); [apply In_dget; [exact Nm|exact Hz]|]. destruct (Val _ Hi') as (_ & Fq & _). destruct (ofZ64 (Z.of_nat (rk (x, w')))); try discriminate; reflexivity.
    - rewrite El. f_equal. assert (Only : forall w', In w' l -> w' = w).
      { intros w' Hw'. apply Hl in Hw'. destruct Hw' as (z & Hz & Mx). destruct (eq_dec_of w' w) as [|N]; [assumption|]. destruct (In_m w' z Hz) as (Hi' & ->).
        assert (Q : Bltb (ofZ64 (Z.of_nat (rk (x, w')))) (ofZ64 (Z.of_nat (rk (x, w)))) = true) by (apply Hlt; [unfold rivals; apply filter_In; split; [exact Hi'|apply beq_refl]|congruence]).
        pose proof (Mx w _ Ec) as Q'. change (@n_ltb F) with (@Bltb 53 1024) in Q'. congruence. }
      destruct l as [|z l]; [congruence|]. rewrite (Only z (or_introl eq_refl)) in *. f_equal. destruct l as [|z' l]; [reflexivity|]. inversion ND as [|? ? Hn _]; subst. exfalso. apply Hn. left. apply Only. right. now left.
  Qed.
End Winner.

(** Source 1 makes two claims, source 2 one; every claim has one supporter.  After k rounds the exact trusts are 2^k and 1: far apart, so the doubles
    rank source 2 below source 1 (and its claim below those of source 1, which have the same supporters and tie). *)
Module UsumsAcc64Examples.
  Import UsumsStop64Examples.
  Notation x k := (rounds (plain_step ts0) ((fun _ => 0), n_supporters ts0) k).
  Lemma exact k : snd (x k) (0, 5)%nat = 2 ^ k /\ snd (x k) (1, 7)%nat = 2 ^ k /\ snd (x k) (0, 6)%nat = 1.
  Proof.
    assert (C1 : claims_of ts0 1%nat = [(0, 5); (1, 7)]%nat) by reflexivity. assert (C2 : claims_of ts0 2%nat = [(0, 6)]%nat) by reflexivity.
    assert (S1 : supporters ts0 (0, 5)%nat = [1%nat]) by reflexivity. assert (S2 : supporters ts0 (1, 7)%nat = [1%nat]) by reflexivity. assert (S3 : supporters ts0 (0, 6)%nat = [2%nat]) by reflexivity.
    induction k as [|k (I1 & I2 & I3)].
    - cbn [rounds snd pow]. unfold n_supporters. rewrite S1, S2, S3. cbn [length INR]. auto.
    - cbn [rounds plain_step snd]. unfold total_trust, total_belief. rewrite S1, S2, S3. cbn [rsum fold_right map]. rewrite C1, C2. cbn [rsum fold_right map]. rewrite I1, I2, I3. cbn [pow]. repeat split; ring.
  Qed.
  Lemma exact_trust k : fst (x (Datatypes.S k)) 1%nat = 2 ^ Datatypes.S k /\ fst (x (Datatypes.S k)) 2%nat = 1.
  Proof.
    assert (C1 : claims_of ts0 1%nat = [(0, 5); (1, 7)]%nat) by reflexivity. assert (C2 : claims_of ts0 2%nat = [(0, 6)]%nat) by reflexivity.
    destruct (exact k) as (I1 & I2 & I3). cbn [rounds plain_step fst]. unfold total_belief. rewrite C1, C2. cbn [rsum fold_right map]. rewrite I1, I2, I3. cbn [pow]. split; ring.
  Qed.
  Lemma err : usums_error 2 3 4 = 30 / 2 ^ 51.
  Proof. unfold usums_error. f_equal. rewrite INR_IZR_INZ. reflexivity. Qed.
  Example range : in_range 2 (length (sources ts0)) (length (claims ts0)) 4.
  Proof. change (length (sources ts0)) with 2%nat. change (length (claims ts0)) with 3%nat. unfold in_range. rewrite err. repeat split; try (cbn; lia). lra. Qed.
  Lemma apart : far (30 / 2 ^ 51) 1 (2 ^ 4). Proof. unfold far. lra. Qed.
  Example separated : well_separated ts0 (usums_error (length (sources ts0)) (length (claims ts0)) 4) (x 4%nat).
  Proof.
    change (length (sources ts0)) with 2%nat. change (length (claims ts0)) with 3%nat. rewrite err. pose proof apart as A. destruct (exact_trust 3) as (T1 & T2). destruct (exact 4) as (I1 & I2 & I3).
    assert (Ss : sources ts0 = [1; 2]%nat) by reflexivity. assert (Sc : claims ts0 = [(0, 5); (1, 7); (0, 6)]%nat) by reflexivity. split; [rewrite Ss|rewrite Sc]; intros u v Hu Hv; cbn [In] in Hu, Hv.
    - destruct Hu as [<-|[<-|[]]], Hv as [<-|[<-|[]]]; rewrite ?T1, ?T2; auto.
    - destruct Hu as [<-|[<-|[<-|[]]]], Hv as [<-|[<-|[<-|[]]]]; rewrite ?I1, ?I2, ?I3; auto.
  Qed.
  (** the run in doubles returns after four rounds, and ranks source 2 below source 1 *)
  Example ranked_in_doubles : exists d r, build (F:=F) false None ts0 = Ok d /\ fst (run (F:=F) (fun _ => ofZ64 0) 10 (AObj UnboundedSums COUNT (IOrd 3 0 0) None) d) = Ok r /\
    exists n n' : nat, trust_of r 2%nat = Some (ofZ64 (Z.of_nat n)) /\ trust_of r 1%nat = Some (ofZ64 (Z.of_nat n')) /\ (n < n')%nat.
  Proof.
    destruct (FloatExamples.strict_builds64 ts0) as [d E]; [unfold ts0, sv_pairs; cbn; repeat constructor; cbn; intuition congruence|].
    pose proof checked as C. unfold check in C. rewrite E in C. exists d. pose proof (C111_usums_order FloatExamples.lm false None ts0 d E (fun _ => ofZ64 0) 10 COUNT 3 0 0 None) as Q.
    destruct (fst (run (F:=F) (fun _ => ofZ64 0) 10 (AObj UnboundedSums COUNT (IOrd 3 0 0) None) d)) as [r|e]; [|discriminate C]. apply (proj1 (beq_true _ _)) in C.
    exists r. split; [exact E|]. split; [exact eq_refl|]. destruct (Q r (n_supporters ts0) 4%nat 2%Z eq_refl eq_refl C range) as (Q1 & _). destruct (exact_trust 3) as (T1 & T2).
    apply (Q1 2%nat 1%nat); [apply mem_In; reflexivity|apply mem_In; reflexivity|]. rewrite T1, T2. change (length (sources ts0)) with 2%nat. change (length (claims ts0)) with 3%nat. rewrite err. apply apart.
  Qed.
  (** the winner for variable 0 is value 5, in doubles *)
  Example winner_in_doubles : exists d r, build (F:=F) false None ts0 = Ok d /\ fst (run (F:=F) (fun _ => ofZ64 0) 10 (AObj UnboundedSums COUNT (IOrd 3 0 0) None) d) = Ok r /\ get_most_believed_values (F:=F) r 0%nat = Ok [5%nat].
  Proof.
    destruct (FloatExamples.strict_builds64 ts0) as [d E]; [unfold ts0, sv_pairs; cbn; repeat constructor; cbn; intuition congruence|].
    pose proof checked as C. unfold check in C. rewrite E in C. exists d. pose proof (C111_usums_winner FloatExamples.lm false None ts0 d E (fun _ => ofZ64 0) 10 COUNT 3 0 0 None) as Q.
    destruct (fst (run (F:=F) (fun _ => ofZ64 0) 10 (AObj UnboundedSums COUNT (IOrd 3 0 0) None) d)) as [r|e]; [|discriminate C]. apply (proj1 (beq_true _ _)) in C.
    exists r. split; [exact E|]. split; [exact eq_refl|]. apply (Q r (n_supporters ts0) 4%nat 2%Z (0, 5)%nat eq_refl eq_refl C range); [apply mem_In; reflexivity|].
    intros a' Hr Na. assert (Er : rivals ts0 (0, 5)%nat = [(0, 5); (0, 6)]%nat) by reflexivity. rewrite Er in Hr. destruct (exact 4) as (I1 & _ & I3).
    destruct Hr as [<-|[<-|[]]]; [congruence|]. rewrite I1, I3. change (length (sources ts0)) with 2%nat. change (length (claims ts0)) with 3%nat. rewrite err. apply apart.
  Qed.
End UsumsAcc64Examples.
