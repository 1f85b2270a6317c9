(** C83: copying the sources, the variables or the whole data set.  Exact arithmetic. *)
From Coq Require Import Reals Lra.
From Verif Require Import Base Num Sparse Spec SpecAlg Dataset DatasetProofs DatasetRep Iterators Algorithms Driver Distance Ranking Rounds
  AlgRep AlgRounds AlgTF AlgPack PropsData PropsIter PropsRun PropsAlg PropsOrd PropsSupport Local PropsLocal PropsCRH.
Local Open Scope R_scope.

(** ** Sums and maxima over copies *)
Lemma rsum_fibres {A B} {EB : Eqb B} (h : A -> B) (u : B -> R) (l' : list A) (l : list B) n : NoDup l -> (forall x, In x l' -> In (h x) l) ->
  (forall y, In y l -> length (filter (fun x => beq (h x) y) l') = n) -> rsum (fun x => u (h x)) l' = INR n * rsum u l.
Proof.
  intros ND Hi Hn. transitivity (rsum (fun x => rsum (fun y => if beq (h x) y then u y else 0) l) l').
  - apply rsum_ext. intros x Hx. symmetry. transitivity (rsum (fun y => if beq y (h x) then u (h x) else 0) l).
    + apply rsum_ext. intros y _. destruct (beq_spec (h x) y) as [<-|N]; [now rewrite beq_refl|]. destruct (beq_spec y (h x)); [congruence|reflexivity].
    + rewrite rsum_single by exact ND. now rewrite (proj2 (mem_In _ _) (Hi x Hx)).
  - rewrite rsum_swap, <- rsum_scal. apply rsum_ext. intros y Hy. rewrite <- (Hn y Hy), <- rsum_const, <- rsum_filter. apply rsum_ext. intros x _. reflexivity.
Qed.
Lemma length_fibres {A B} {EB : Eqb B} (h : A -> B) (l' : list A) (l : list B) n : NoDup l -> (forall x, In x l' -> In (h x) l) ->
  (forall y, In y l -> length (filter (fun x => beq (h x) y) l') = n) -> INR (length l') = INR n * INR (length l).
Proof.
  intros ND Hi Hn. pose proof (rsum_fibres h (fun _ => 1) l' l n ND Hi Hn) as Q. rewrite !rsum_const in Q. lra.
Qed.
Lemma rmax_onto {A B} (h : A -> B) (u : B -> R) (u' : A -> R) l' l : (forall x, In x l' -> In (h x) l) -> (forall y, In y l -> exists x, In x l' /\ h x = y) ->
  (forall x, In x l' -> u' x = u (h x)) -> rmax u' l' = rmax u l.
Proof.
  intros Hi Ho Hu. unfold rmax. apply rmaxl_same_set. intros z. rewrite !in_map_iff. split.
  - intros (x & <- & Hx). exists (h x). split; [symmetry; now apply Hu|now apply Hi].
  - intros (y & <- & Hy). destruct (Ho y Hy) as (x & Hx & <-). exists x. split; [now apply Hu|exact Hx].
Qed.

(** ** Specification *)
Section Cover.
  Context {S V W S' V' : Type} {ES : Eqb S} {EV : Eqb V} {EW : Eqb W} {ES' : Eqb S'} {EV' : Eqb V'}.
  Variables (ts : list (S * V * W)) (ts' : list (S' * V' * W)).
  (** [g s'] is the source that [s'] is a copy of, [h x'] the variable that [x'] is a copy of *)
  Variables (g : S' -> S) (h : V' -> V) (p q : nat).
  Definition orig (c' : V' * W) : V * W := (h (fst c'), snd c').
  (** [ts'] consists of copies of the sources, variables and claims of [ts], such that every claim has [p] copies of each of
      its supporters and every source makes [q] copies of each of its claims. *)
  Record copies : Prop := {
    cov_src : forall s', In s' (sources ts') -> In (g s') (sources ts);
    cov_src_onto : forall s, In s (sources ts) -> exists s', In s' (sources ts') /\ g s' = s;
    cov_cl : forall x' w, In x' (variables ts') -> (In (x', w) (claims ts') <-> In (h x', w) (claims ts));
    cov_cl_onto : forall c, In c (claims ts) -> exists c', In c' (claims ts') /\ orig c' = c;
    cov_says : forall s' c', says ts' s' c' = true -> says ts (g s') (orig c') = true;
    cov_supp : forall c' s, In c' (claims ts') -> says ts s (orig c') = true -> length (filter (fun s' => beq (g s') s) (supporters ts' c')) = p;
    cov_claims : forall s' c, In s' (sources ts') -> says ts (g s') c = true -> length (filter (fun c' => beq (orig c') c) (claims_of ts' s')) = q;
    cov_p : (0 < p)%nat;
    cov_q : (0 < q)%nat }.
  (** how much may be copied, for each algorithm *)
  Definition copy_ok (a : alg XR) : Prop :=
    match a with
    | Sums | Investment (Fin _) | PooledInvestment (Fin _) => True
    | AverageLog => q = 1%nat
    | TruthFinder (Fin _) (Fin _) (Fin t0) => t0 < 1 /\ p = 1%nat
    | _ => False
    end.
  (** every copy has the scores of its original *)
  Definition same_scores (r : result S V W xr) (r' : result S' V' W xr) : Prop :=
    (forall s', In s' (sources ts') -> exists u, trust_of r' s' = Some (Fin u) /\ trust_of r (g s') = Some (Fin u)) /\
    (forall c', In c' (claims ts') -> exists u, belief_of r' c' = Some (Fin u) /\ belief_of r (orig c') = Some (Fin u)).

  Hypothesis C : copies.
  Lemma cl_orig c' : In c' (claims ts') -> In (orig c') (claims ts).
  Proof. intros Hc. destruct c' as [x' w]. apply (cov_cl C x' w); [|exact Hc]. exact (claims_var ts' (x', w) Hc). Qed.
  Lemma tt_copies (u : S -> R) (u' : S' -> R) k c' : (forall s', In s' (sources ts') -> u' s' = k * u (g s')) -> In c' (claims ts') -> total_trust ts' u' c' = INR p * k * total_trust ts u (orig c').
  Proof.
    intros H Hc. unfold total_trust. transitivity (rsum (fun s' => k * u (g s')) (supporters ts' c')).
    - apply rsum_ext. intros s' Hs'. apply H. now apply (supporters_sources ts' s' c').
    - rewrite rsum_scal, (rsum_fibres g u (supporters ts' c') (supporters ts (orig c')) p); [ring|apply supporters_NoDup| |].
      + intros s' Hs'. apply supporters_In. apply (cov_says C). now apply supporters_In.
      + intros s Hs. apply (cov_supp C c' s Hc). now apply supporters_In.
  Qed.
  Lemma tb_copies (u : V * W -> R) (u' : V' * W -> R) k s' : (forall c', In c' (claims ts') -> u' c' = k * u (orig c')) -> In s' (sources ts') -> total_belief ts' u' s' = INR q * k * total_belief ts u (g s').
  Proof.
    intros H Hs. unfold total_belief. transitivity (rsum (fun c' => k * u (orig c')) (claims_of ts' s')).
    - apply rsum_ext. intros c' Hc'. apply H. now apply (claims_of_claims ts' s').
    - rewrite rsum_scal, (rsum_fibres orig u (claims_of ts' s') (claims_of ts (g s')) q); [ring|apply claims_of_NoDup| |].
      + intros c' Hc'. apply claims_of_In. apply (cov_says C). now apply claims_of_In.
      + intros c Hc. apply (cov_claims C s' c Hs). now apply claims_of_In.
  Qed.
  Lemma n_claims_copies s' : In s' (sources ts') -> n_claims ts' s' = INR q * n_claims ts (g s').
  Proof.
    intros Hs. unfold n_claims. apply (length_fibres orig); [apply claims_of_NoDup| |].
    - intros c' Hc'. apply claims_of_In. apply (cov_says C). now apply claims_of_In.
    - intros c Hc. apply (cov_claims C s' c Hs). now apply claims_of_In.
  Qed.
  Lemma n_supporters_copies c' : In c' (claims ts') -> n_supporters ts' c' = INR p * n_supporters ts (orig c').
  Proof.
    intros Hc. unfold n_supporters. apply (length_fibres g); [apply supporters_NoDup| |].
    - intros s' Hs'. apply supporters_In. apply (cov_says C). now apply supporters_In.
    - intros s Hs. apply (cov_supp C c' s Hc). now apply supporters_In.
  Qed.
  Lemma rivals_perm c' : In c' (claims ts') -> Permutation (map orig (rivals ts' c')) (rivals ts (orig c')).
  Proof.
    intros Hc. apply NoDup_Permutation; [|apply rivals_NoDup|].
    - assert (Q : forall l, NoDup l -> (forall c, In c l -> fst c' = fst c) -> NoDup (map orig l)).
      { induction l as [|c l IH]; intros N Hf; [constructor|]. inversion N as [|? ? N1 N2]; subst. cbn [map]. constructor; [|apply IH; [exact N2|intros; apply Hf; now right]].
        rewrite in_map_iff. intros (c2 & E & H2). apply N1. replace c with c2; [exact H2|]. unfold orig in E. injection E as _ E. pose proof (Hf c (or_introl eq_refl)). pose proof (Hf c2 (or_intror H2)). destruct c, c2; cbn in *; congruence. }
      apply Q; [apply rivals_NoDup|]. intros c Hr. now apply rivals_In in Hr.
    - intros c. rewrite in_map_iff, rivals_In. split.
      + intros (c2 & <- & H2). apply rivals_In in H2. destruct H2 as [H2 E]. split; [now apply cl_orig|]. unfold orig. cbn. now rewrite E.
      + intros [Hin E]. destruct c as [x w]. cbn in E. subst x. exists (fst c', w). split; [reflexivity|]. apply rivals_In. split; [|reflexivity]. apply (cov_cl C); [now apply claims_var|exact Hin].
  Qed.
  Lemma rivals_copies (u : V * W -> R) (u' : V' * W -> R) k c' : (forall c', In c' (claims ts') -> u' c' = k * u (orig c')) -> In c' (claims ts') -> rsum u' (rivals ts' c') = k * rsum u (rivals ts (orig c')).
  Proof.
    intros H Hc. rewrite <- (rsum_Permutation u _ _ (rivals_perm c' Hc)), rsum_map, <- rsum_scal. apply rsum_ext. intros c2 H2. apply H. apply rivals_In in H2. tauto.
  Qed.
  Lemma n_rivals_copies c' : In c' (claims ts') -> length (rivals ts' c') = length (rivals ts (orig c')).
  Proof. intros Hc. rewrite <- (Permutation_length (rivals_perm c' Hc)). symmetry. apply map_length. Qed.

  (** trusts [q1] times, beliefs [q2] times those of the originals *)
  Definition lifted (q1 q2 : R) (x : rscores (S:=S) (V:=V) (W:=W)) (y : rscores (S:=S') (V:=V') (W:=W)) : Prop :=
    (forall s', In s' (sources ts') -> fst y s' = q1 * fst x (g s')) /\ (forall c', In c' (claims ts') -> snd y c' = q2 * snd x (orig c')).
  Lemma by_max_copies (T : S -> R) (B : V * W -> R) T' B' k k' : 0 < k -> 0 < k' -> (forall s', In s' (sources ts') -> T' s' = k * T (g s')) -> (forall c', In c' (claims ts') -> B' c' = k' * B (orig c')) ->
    0 < rmax T (sources ts) -> 0 < rmax B (claims ts) -> lifted 1 1 (by_max (sources ts) T, by_max (claims ts) B) (by_max (sources ts') T', by_max (claims ts') B').
  Proof.
    intros Hk Hk' HT HB M1 M2. split; intros z Hz; cbn [fst snd]; unfold by_max.
    - rewrite (rmax_onto g (fun s => k * T s) T' (sources ts') (sources ts) (cov_src C) (cov_src_onto C) HT), rmax_scal, (HT z Hz) by lra. field. lra.
    - rewrite (rmax_onto orig (fun c => k' * B c) B' (claims ts') (claims ts) cl_orig (cov_cl_onto C) HB), rmax_scal, (HB z Hz) by lra. field. lra.
  Qed.
  Hypothesis NE : ts <> [].
  Lemma p_pos : 0 < INR p. Proof. apply lt_0_INR, (cov_p C). Qed.
  Lemma q_pos : 0 < INR q. Proof. apply lt_0_INR, (cov_q C). Qed.
  Lemma sums_copies q1 q2 x y : 0 < q2 -> lifted q1 q2 x y -> (forall c, In c (claims ts) -> 0 < snd x c) -> lifted 1 1 (sums_step ts x) (sums_step ts' y).
  Proof.
    intros H2 [_ Hc] P. pose proof p_pos. pose proof q_pos.
    apply (by_max_copies _ _ _ _ (INR q * q2) (INR p * (INR q * q2))).
    - now apply Rmult_lt_0_compat.
    - apply Rmult_lt_0_compat; [assumption|now apply Rmult_lt_0_compat].
    - intros s' Hs'. now apply tb_copies.
    - intros c' Hc'. apply tt_copies; [|exact Hc']. intros s' Hs'. now apply tb_copies.
    - apply rmax_src_pos; [exact NE|]. intros. now apply total_belief_pos.
    - apply rmax_cl_pos; [exact NE|]. intros. apply total_trust_pos; [|assumption]. intros. now apply total_belief_pos.
  Qed.
  Lemma avlog_copies q1 q2 x y : q = 1%nat -> 0 < q2 -> lifted q1 q2 x y -> 0 < rmax (avlog_trust ts (snd x)) (sources ts) -> 0 < rmax (total_trust ts (avlog_trust ts (snd x))) (claims ts) ->
    lifted 1 1 (avlog_step ts x) (avlog_step ts' y).
  Proof.
    intros Eq H2 [_ Hc] M1 M2. pose proof p_pos. assert (T : forall s', In s' (sources ts') -> avlog_trust ts' (snd y) s' = q2 * avlog_trust ts (snd x) (g s')).
    { intros s' Hs'. unfold avlog_trust. rewrite (n_claims_copies s' Hs'), (tb_copies (snd x) (snd y) q2 s' Hc Hs'), Eq. cbn [INR]. rewrite !Rmult_1_l. unfold Rdiv. ring. }
    apply (by_max_copies (avlog_trust ts (snd x)) (total_trust ts (avlog_trust ts (snd x))) (avlog_trust ts' (snd y)) (total_trust ts' (avlog_trust ts' (snd y))) q2 (INR p * q2)); auto.
    - now apply Rmult_lt_0_compat.
    - intros c' Hc'. now apply tt_copies.
  Qed.
  Lemma invests_copies k t t' s' : (forall s', In s' (sources ts') -> t' s' = k * t (g s')) -> In s' (sources ts') -> invests ts' t' s' = k / INR q * invests ts t (g s').
  Proof. intros H Hs. unfold invests. rewrite (H s' Hs), (n_claims_copies s' Hs). pose proof q_pos. pose proof (n_claims_pos ts (g s') (cov_src C s' Hs)). field. lra. Qed.
  Lemma invested_copies k t t' c' : (forall s', In s' (sources ts') -> t' s' = k * t (g s')) -> In c' (claims ts') -> invested ts' t' c' = INR p * (k / INR q) * invested ts t (orig c').
  Proof. intros H Hc. apply tt_copies; [|exact Hc]. intros s' Hs'. now apply invests_copies. Qed.
  Lemma returned_copies q1 q2 x y s' : 0 < q1 -> lifted q1 q2 x y -> all_pos ts x -> In s' (sources ts') -> returned ts' y s' = INR q * (q2 / INR p) * returned ts x (g s').
  Proof.
    intros H1 [Hs Hc] [P1 P2] Hin. pose proof p_pos. pose proof q_pos. unfold returned.
    transitivity (rsum (fun c' => q2 / INR p * (snd x (orig c') * (invests ts (fst x) (g s') / invested ts (fst x) (orig c')))) (claims_of ts' s')).
    - apply rsum_ext. intros c' Hc'. pose proof (claims_of_claims ts' s' c' Hc') as Cl. rewrite (Hc c' Cl), (invests_copies q1 (fst x) (fst y) s' Hs Hin), (invested_copies q1 (fst x) (fst y) c' Hs Cl).
      pose proof (invested_pos ts (fst x) (orig c') P1 (cl_orig c' Cl)). field. lra.
    - rewrite rsum_scal. rewrite (rsum_fibres orig (fun c => snd x c * (invests ts (fst x) (g s') / invested ts (fst x) c)) (claims_of ts' s') (claims_of ts (g s')) q); [ring|apply claims_of_NoDup| |].
      + intros c' Hc'. apply claims_of_In. apply (cov_says C). now apply claims_of_In.
      + intros c Hcl. apply (cov_claims C s' c Hin). now apply claims_of_In.
  Qed.
  Lemma inv_copies e q1 q2 x y : 0 < q1 -> 0 < q2 -> lifted q1 q2 x y -> all_pos ts x -> lifted 1 1 (inv_step ts e x) (inv_step ts' e y).
  Proof.
    intros H1 H2 H P. pose proof p_pos. pose proof q_pos. set (k := INR q * (q2 / INR p)). assert (Hk : 0 < k) by (apply Rmult_lt_0_compat; [assumption|now apply Rdiv_lt_0_compat]).
    assert (T : forall s', In s' (sources ts') -> returned ts' y s' = k * returned ts x (g s')) by (intros; now apply (returned_copies q1)).
    assert (Hm : 0 < INR p * (k / INR q)) by (apply Rmult_lt_0_compat; [assumption|now apply Rdiv_lt_0_compat]).
    apply (by_max_copies (returned ts x) (fun c => Rpower (invested ts (returned ts x) c) e) (returned ts' y) (fun c => Rpower (invested ts' (returned ts' y) c) e) k (Rpower (INR p * (k / INR q)) e)); auto.
    - apply Rpower_pos.
    - intros c' Hc'. rewrite (invested_copies k _ _ c' T Hc'). symmetry. apply Rpower_mult_distr; [exact Hm|]. apply invested_pos; [|now apply cl_orig]. intros. now apply returned_pos.
    - apply rmax_src_pos; [exact NE|]. intros. now apply returned_pos.
    - apply rmax_cl_pos; [exact NE|]. intros. apply Rpower_pos.
  Qed.
  Lemma pooled_copies e q1 q2 x y : 0 < q1 -> 0 < q2 -> lifted q1 q2 x y -> all_pos ts x -> lifted 1 1 (pooled_step ts e x) (pooled_step ts' e y).
  Proof.
    intros H1 H2 H P. pose proof p_pos. pose proof q_pos. set (k := INR q * (q2 / INR p)). assert (Hk : 0 < k) by (apply Rmult_lt_0_compat; [assumption|now apply Rdiv_lt_0_compat]).
    assert (T : forall s', In s' (sources ts') -> returned ts' y s' = k * returned ts x (g s')) by (intros; now apply (returned_copies q1)).
    set (m := INR p * (k / INR q)). assert (Hm : 0 < m) by (apply Rmult_lt_0_compat; [assumption|now apply Rdiv_lt_0_compat]).
    assert (Tp : forall s, In s (sources ts) -> 0 < returned ts x s) by (intros; now apply returned_pos).
    assert (Hh : forall c', In c' (claims ts') -> Rpower (invested ts' (returned ts' y) c') e = Rpower m e * Rpower (invested ts (returned ts x) (orig c')) e).
    { intros c' Hc'. rewrite (invested_copies k _ _ c' T Hc'). symmetry. apply Rpower_mult_distr; [exact Hm|]. apply invested_pos; [exact Tp|now apply cl_orig]. }
    apply (by_max_copies (returned ts x) (fun c => invested ts (returned ts x) c * (Rpower (invested ts (returned ts x) c) e / rsum (fun c => Rpower (invested ts (returned ts x) c) e) (rivals ts c)))
      (returned ts' y) (fun c => invested ts' (returned ts' y) c * (Rpower (invested ts' (returned ts' y) c) e / rsum (fun c => Rpower (invested ts' (returned ts' y) c) e) (rivals ts' c))) k m); auto.
    - intros c' Hc'. rewrite (rivals_copies (fun c => Rpower (invested ts (returned ts x) c) e) (fun c => Rpower (invested ts' (returned ts' y) c) e) (Rpower m e) c' Hh Hc'), (Hh c' Hc'), (invested_copies k _ _ c' T Hc').
      fold m. field. split; [|apply Rgt_not_eq, Rpower_pos]. apply Rgt_not_eq. apply (rsum_pos _ _ (orig c')); [intros; left; apply Rpower_pos|apply rivals_In; split; [now apply cl_orig|reflexivity]|apply Rpower_pos].
    - apply rmax_src_pos; [exact NE|exact Tp].
    - apply rmax_cl_pos; [exact NE|]. intros. now apply pooled_belief_pos.
  Qed.
  Variable f : option (V -> W -> W -> option R).
  (** a copy of a variable has the implications of the variable *)
  Definition imp_copies : option (V' -> W -> W -> option R) := option_map (fun f0 x' w w' => f0 (h x') w w') f.
  Lemma implication_rivals {A B D : Type} {EA : Eqb A} {EB : Eqb B} {ED : Eqb D} (f0 : option (B -> D -> D -> option R)) (l : list (A * B * D)) (u : B * D -> R) c :
    rsum (fun c' => implication f0 c' c * u c') (claims l) = rsum (fun c' => implication f0 c' c * u c') (rivals l c).
  Proof.
    unfold rivals. rewrite rsum_filter. apply rsum_ext. intros c' _. unfold implication. destruct f0 as [f1|]; [|destruct (beq _ _); lra].
    destruct (beq_spec (fst c') (fst c)) as [->|N]; [now rewrite ?beq_refl|]. cbn [andb]. destruct (beq_spec (fst c) (fst c')); [congruence|]. lra.
  Qed.
  Lemma tf_copies rho gamma x y : p = 1%nat -> lifted 1 1 x y -> lifted 1 1 (tf_step ts f rho gamma x) (tf_step ts' imp_copies rho gamma y).
  Proof.
    intros Ep [Hs Hc]. pose proof q_pos. assert (TT : forall c', In c' (claims ts') -> total_trust ts' (fun s => - ln (1 - fst y s)) c' = total_trust ts (fun s => - ln (1 - fst x s)) (orig c')).
    { intros c' Hc'. rewrite (tt_copies (fun s => - ln (1 - fst x s)) (fun s => - ln (1 - fst y s)) 1 c'); [rewrite Ep; cbn [INR]; lra| |exact Hc']. intros s' Hs'. rewrite (Hs s' Hs'). rewrite !Rmult_1_l. reflexivity. }
    assert (B : forall c', In c' (claims ts') -> snd (tf_step ts' imp_copies rho gamma y) c' = 1 * snd (tf_step ts f rho gamma x) (orig c')).
    { intros c' Hc'. rewrite Rmult_1_l. cbn [snd tf_step]. rewrite (TT c' Hc').
      assert (Q : rsum (fun c2 => implication imp_copies c2 c' * total_trust ts' (fun s => - ln (1 - fst y s)) c2) (claims ts') = rsum (fun c2 => implication f c2 (orig c') * total_trust ts (fun s => - ln (1 - fst x s)) c2) (claims ts)); [|now rewrite Q].
      rewrite (implication_rivals imp_copies ts'), (implication_rivals f ts). rewrite <- (rsum_Permutation _ _ _ (rivals_perm c' Hc')), rsum_map. apply rsum_ext. intros c2 H2. apply rivals_In in H2. destruct H2 as [H2 E2].
      rewrite (TT c2 H2). f_equal. unfold implication, imp_copies. destruct f as [f0|]; [|reflexivity]. cbn [option_map]. unfold orig. cbn [fst snd]. rewrite <- E2, !beq_refl. cbn [andb].
      assert (Eb : beq c2 c' = beq (h (fst c'), snd c2) (h (fst c'), snd c')).
      { destruct (beq_spec c2 c') as [->|N]; [now rewrite beq_refl|]. destruct (beq_spec (h (fst c'), snd c2) (h (fst c'), snd c')) as [E|]; [|reflexivity]. exfalso. apply N. injection E as E. destruct c2, c'; cbn in *; congruence. }
      now rewrite Eb. }
    split; [|exact B]. intros s' Hs'. change (total_belief ts' (snd (tf_step ts' imp_copies rho gamma y)) s' / n_claims ts' s' = 1 * (total_belief ts (snd (tf_step ts f rho gamma x)) (g s') / n_claims ts (g s'))). rewrite (n_claims_copies s' Hs').
    rewrite (tb_copies (snd (tf_step ts f rho gamma x)) (snd (tf_step ts' imp_copies rho gamma y)) 1 s' B Hs'). pose proof (n_claims_pos ts (g s') (cov_src C s' Hs')). field. lra.
  Qed.
  Lemma prior_copies pr bel bel' : prior_spec ts pr = Some bel -> prior_spec ts' pr = Some bel' -> forall c', In c' (claims ts') -> bel' c' = (match pr with COUNT => INR p | _ => 1 end) * bel (orig c').
  Proof.
    intros E E' c' Hc'. pose proof p_pos. destruct pr; cbn in E, E'; try discriminate; injection E as <-; injection E' as <-.
    - lra.
    - rewrite (rivals_copies (n_supporters ts) (n_supporters ts') (INR p) c' n_supporters_copies Hc'), (n_supporters_copies c' Hc').
      assert (0 < rsum (n_supporters ts) (rivals ts (orig c'))).
      { pose proof (cl_orig c' Hc') as Cl. apply (rsum_pos _ _ (orig c')); [intros c Hcr; left; apply n_supporters_pos; apply rivals_In in Hcr; tauto|now apply rivals_self|now apply n_supporters_pos]. }
      field. lra.
    - now apply n_supporters_copies.
    - rewrite (n_rivals_copies c' Hc'). lra.
  Qed.
  Lemma start_copies a pr x0 y0 : copy_ok a -> start ts a pr = Some x0 -> start ts' a pr = Some y0 ->
    lifted 1 (match a with TruthFinder _ _ _ => 1 | _ => match pr with COUNT => INR p | _ => 1 end end) x0 y0.
  Proof.
    intros Ha E E'. destruct a as [| |[]|[]|[] [] []|[]|]; cbn in Ha, E, E'; try contradiction; try discriminate;
      try (destruct (prior_spec ts pr) as [bel|] eqn:Ep; [|discriminate]; destruct (prior_spec ts' pr) as [bel'|] eqn:Ep'; [|discriminate];
           injection E as <-; injection E' as <-; split; cbn [fst snd]; intros z Hz; [lra|now apply (prior_copies pr)]).
    injection E as <-. injection E' as <-. split; cbn [fst snd]; intros; lra.
  Qed.
End Cover.

Section C83.
  Context {S V W S' V' : Type} {ES : Eqb S} {EV : Eqb V} {EW : Eqb W} {ES' : Eqb S'} {EV' : Eqb V'}.
  Variables (b b' : bool) (f : option (V -> W -> W -> option R)) (ts : list (S * V * W)) (ts' : list (S' * V' * W)) (d : dataset S V W XR) (d' : dataset S' V' W XR).
  Variables (g : S' -> S) (h : V' -> V) (p q : nat).
  Hypothesis Hb : build b (real_imp f) ts = Ok d.
  Hypothesis Hb' : build b' (real_imp (imp_copies h f)) ts' = Ok d'.
  Hypothesis C : copies ts ts' g h p q.
  Lemma copy_params a : copy_ok p q a -> params_ok a /\ a <> UnboundedSums.
  Proof. destruct a as [| |[]|[]|[] [] []|[]|]; cbn; try tauto; split; (tauto || discriminate). Qed.
  Lemma copy_data a : copy_ok p q a -> data_ok ts a -> data_ok ts' a.
  Proof.
    intros Ha. destruct a; cbn in *; try tauto. intros (s & Hs & H). destruct (cov_src_onto _ _ _ _ _ _ C s Hs) as (s' & Hs' & E). exists s'. split; [exact Hs'|].
    pose proof (n_claims_copies ts ts' g h p q C s' Hs') as N. rewrite Ha, E in N. cbn [INR] in N. rewrite Rmult_1_l in N. unfold n_claims in N. apply INR_eq in N. now rewrite N.
  Qed.
  Lemma copy_step a q1 q2 x y : ts <> [] -> copy_ok p q a -> data_ok ts a -> good ts a x -> 0 < q1 -> 0 < q2 -> lifted ts' g h q1 q2 x y ->
    (match a with TruthFinder _ _ _ => q1 = 1 /\ q2 = 1 | _ => True end) -> lifted ts' g h 1 1 (step_of f ts a x) (step_of (imp_copies h f) ts' a y).
  Proof.
    intros NE Ha Hd G H1 H2 H T. destruct a as [| |[e| | |]|[e| | |]|[rho| | |] [gamma| | |] [t0| | |]|[]|]; cbn in Ha; try contradiction; cbn [step_of good data_ok] in *.
    - now apply (sums_copies ts ts' g h p q C NE q1 q2).
    - destruct (avlog_round ts (real_imp f) d (build_rep _ _ _ _ Hb) NE x Hd G) as (_ & _ & M1 & M2). now apply (avlog_copies ts ts' g h p q C q1 q2).
    - now apply (inv_copies ts ts' g h p q C NE e q1 q2).
    - now apply (pooled_copies ts ts' g h p q C NE e q1 q2).
    - destruct T as [-> ->]. now apply (tf_copies ts ts' g h p q C f).
  Qed.
  Lemma copy_rounds a pr x0 y0 k : ts <> [] -> copy_ok p q a -> data_ok ts a -> good ts a x0 -> start ts a pr = Some x0 -> start ts' a pr = Some y0 ->
    lifted ts' g h 1 (match k with O => match a with TruthFinder _ _ _ => 1 | _ => match pr with COUNT => INR p | _ => 1 end end | _ => 1 end) (rounds (step_of f ts a) x0 k) (rounds (step_of (imp_copies h f) ts' a) y0 k).
  Proof.
    intros NE Ha Hd G E E'. destruct (copy_params a Ha) as [Hp _]. pose proof (p_pos ts ts' g h p q C) as Pp. induction k as [|k IH]; [now apply (start_copies ts ts' g h p q C)|].
    cbn [rounds]. eapply copy_step; [exact NE|exact Ha|exact Hd|exact (proj2 (pack_scores b f ts d Hb NE a x0 Hp Hd G k))| | |exact IH|].
    - lra.
    - destruct k, a, pr; lra.
    - destruct a; try exact Logic.I. split; [reflexivity|]. destruct k; reflexivity.
  Qed.
  Theorem C83_copies clock fuel a pr n st lg r o clock' fuel' st' lg' r' o' : copy_ok p q a -> data_ok ts a ->
    run clock fuel (AObj a pr (IFixed n st) lg) d = (Ok r, o) -> run clock' fuel' (AObj a pr (IFixed n st') lg') d' = (Ok r', o') ->
    pr <> COUNT \/ p = 1%nat \/ (1 <= n)%Z -> same_scores ts' g h r r'.
  Proof.
    intros Ha Hd H H' Hn. destruct (copy_params a Ha) as [Hp Nu].
    destruct (fixed_rounds f b ts d Hb clock fuel a pr n st lg r o Hp Hd Nu H) as (x0 & NE & E0 & G & Rp).
    destruct (fixed_rounds (imp_copies h f) b' ts' d' Hb' clock' fuel' a pr n st' lg' r' o' Hp (copy_data a Ha Hd) Nu H') as (y0 & _ & E0' & _ & Rp').
    pose proof (copy_rounds a pr x0 y0 (Z.to_nat n) NE Ha Hd G E0 E0') as L.
    assert (Q : (match Z.to_nat n with O => match a with TruthFinder _ _ _ => 1 | _ => match pr with COUNT => INR p | _ => 1 end end | _ => 1 end) = 1).
    { destruct (Z.to_nat n) eqn:En; [|reflexivity]. destruct Hn as [Hn|[->|Hn]]; [destruct a, pr; (reflexivity || congruence)|destruct a, pr; reflexivity|lia]. }
    rewrite Q in L. destruct L as [Ls Lc]. split; intros z Hz.
    - eexists. split; [exact (reports_trust ts' r' _ z Rp' Hz)|]. refine (eq_trans (reports_trust ts r _ (g z) Rp (cov_src _ _ _ _ _ _ C z Hz)) _). now rewrite (Ls z Hz), Rmult_1_l.
    - eexists. split; [exact (reports_belief ts' r' _ z Rp' Hz)|]. refine (eq_trans (reports_belief ts r _ (orig h z) Rp (cl_orig ts ts' g h p q C z Hz)) _). now rewrite (Lc z Hz), Rmult_1_l.
  Qed.
  Theorem C83_voting clock clock' r r' : voting_run clock d = Ok r -> voting_run clock' d' = Ok r' -> same_scores ts' g h r r'.
  Proof.
    intros H H'. assert (NE : ts <> []).
    { intros Q. pose proof Hb as Hb0. rewrite Q in Hb0. destruct (C26_empty b (real_imp f) [] d Hb0 clock 0 (AObj Sums FIXED (IFixed 0 0) None)) as [A _]. destruct (A eq_refl) as (_ & _ & A'). rewrite A' in H. discriminate. }
    assert (NEx : ts' <> []).
    { intros Q. pose proof (src_ne ts NE) as N. destruct (sources ts) as [|s l] eqn:Es; [congruence|]. destruct (cov_src_onto _ _ _ _ _ _ C s) as (s' & Hs' & _); [rewrite Es; now left|]. rewrite Q in Hs'. exact Hs'. }
    destruct (C31_voting b f ts d Hb clock NE) as (r1 & E1 & _ & Rp). rewrite H in E1. injection E1 as <-.
    destruct (C31_voting b' (imp_copies h f) ts' d' Hb' clock' NEx) as (r1 & E1 & _ & Rp'). rewrite H' in E1. injection E1 as <-.
    pose proof (p_pos ts ts' g h p q C) as Pp.
    assert (M : 0 < rmax (n_supporters ts) (claims ts)) by (apply rmax_cl_pos; [exact NE|intros; now apply n_supporters_pos]).
    assert (Ns : forall c', In c' (claims ts') -> n_supporters ts' c' = INR p * n_supporters ts (orig h c')) by (intros c' Hc'; exact (n_supporters_copies ts ts' g h p q C c' Hc')).
    split; intros z Hz.
    - eexists. split; [exact (reports_trust ts' r' _ z Rp' Hz)|]. exact (reports_trust ts r _ (g z) Rp (cov_src _ _ _ _ _ _ C z Hz)).
    - eexists. split; [exact (reports_belief ts' r' _ z Rp' Hz)|]. refine (eq_trans (reports_belief ts r _ (orig h z) Rp (cl_orig ts ts' g h p q C z Hz)) _). cbn [snd]. do 2 f_equal.
      rewrite (rmax_onto (orig h) (fun c => INR p * n_supporters ts c) (n_supporters ts') (claims ts') (claims ts) (cl_orig ts ts' g h p q C) (cov_cl_onto _ _ _ _ _ _ C) Ns), rmax_scal, (Ns z Hz) by lra. field. lra.
  Qed.
End C83.

(** ** Ways of copying *)
Lemma count_as {A} (P : A -> bool) l m : NoDup l -> NoDup m -> (forall x, In x m <-> In x l /\ P x = true) -> length (filter P l) = length m.
Proof. intros N M H. apply Permutation_length, NoDup_Permutation; [now apply NoDup_filter|exact M|]. intros x. rewrite filter_In. symmetry. apply H. Qed.
Lemma NoDup_pairs {A} (a : A) l : NoDup l -> NoDup (map (fun i : nat => (a, i)) l).
Proof. intros N. induction N as [|i l H N IH]; [constructor|]. cbn. constructor; [|exact IH]. rewrite in_map_iff. intros (j & E & Hj). injection E as <-. contradiction. Qed.
Section Ways.
  Context {S V W : Type} {ES : Eqb S} {EV : Eqb V} {EW : Eqb W}.
  Variable ts : list (S * V * W).
  Lemma var_said {A B D : Type} {EA : Eqb A} {EB : Eqb B} {ED : Eqb D} (l : list (A * B * D)) x : In x (variables l) -> exists s w, says l s (x, w) = true.
  Proof.
    intros H. apply variables_In in H. destruct H as (s & v & H). destruct (first_claim l s x) as [w|] eqn:Fc.
    - exists s, w. now apply says_true.
    - apply first_claim_None in Fc. exfalso. apply Fc. apply in_map_iff. now exists (s, x, v).
  Qed.
  Lemma src_said {A B D : Type} {EA : Eqb A} {EB : Eqb B} {ED : Eqb D} (l : list (A * B * D)) s : In s (sources l) <-> exists c, says l s c = true.
  Proof. split; [intros H; destruct (source_claims l s H) as (c & _ & Hc); eauto|intros [c Hc]; now apply says_source in Hc]. Qed.

  (** [k] copies of every source, each making the same claims (in whatever order) *)
  Theorem C83_copied_sources (ts' : list ((S * nat) * V * W)) k : (0 < k)%nat -> (forall s i c, says ts' (s, i) c = true <-> says ts s c = true /\ (i < k)%nat) ->
    copies ts ts' fst (fun x => x) k 1.
  Proof.
    intros Hk H. assert (Oc : forall c : V * W, orig (fun x : V => x) c = c) by (intros []; reflexivity). assert (Cl : forall c, In c (claims ts') <-> In c (claims ts)).
    { intros c. rewrite !claims_In. split; [intros ([s i] & Hs); exists s; now apply H in Hs|intros [s Hs]; exists (s, 0%nat); now apply H]. }
    constructor.
    - intros [s i] Hs. apply src_said in Hs. destruct Hs as [c Hc]. apply H in Hc. apply src_said. exists c. tauto.
    - intros s Hs. exists (s, 0%nat). split; [|reflexivity]. apply src_said in Hs. destruct Hs as [c Hc]. apply src_said. exists c. now apply H.
    - intros x w _. apply Cl.
    - intros c Hc. exists c. split; [now apply Cl|apply Oc].
    - intros [s i] c Hc. rewrite Oc. now apply H in Hc.
    - intros c s _ Hs. rewrite Oc in Hs. rewrite (count_as _ _ (map (fun i => (s, i)) (seq 0 k))); [now rewrite map_length, seq_length|apply supporters_NoDup|apply NoDup_pairs, seq_NoDup|].
      intros [s' i]. rewrite in_map_iff, supporters_In, H. cbn [fst]. split.
      + intros (j & E & Hj). injection E as <- <-. apply in_seq in Hj. split; [split; [exact Hs|lia]|apply beq_refl].
      + intros [[_ Hi] E]. apply beq_eq in E. subst. exists i. split; [reflexivity|]. apply in_seq. lia.
    - intros [s i] c Hs Hc. cbn [fst] in Hc. rewrite (count_as _ _ [c]); [reflexivity|apply claims_of_NoDup|repeat constructor; intros []|].
      apply src_said in Hs. destruct Hs as [c0 Hs]. apply H in Hs. intros c'. rewrite claims_of_In, Oc, H. split.
      + intros [<-|[]]. split; [tauto|apply beq_refl].
      + intros [_ E]. apply beq_eq in E. now left.
    - exact Hk.
    - lia.
  Qed.
  (** [k] copies of every variable, about which every source says the same *)
  Theorem C83_copied_variables (ts' : list (S * (V * nat) * W)) k : (0 < k)%nat -> (forall s x j w, says ts' s ((x, j), w) = true <-> says ts s (x, w) = true /\ (j < k)%nat) ->
    copies ts ts' (fun s => s) fst 1 k.
  Proof.
    intros Hk H. assert (Sr : forall s, In s (sources ts') <-> In s (sources ts)).
    { intros s. rewrite !src_said. split; [intros [[[x j] w] Hc]; apply H in Hc; exists (x, w); tauto|intros [[x w] Hc]; exists ((x, 0%nat), w); now apply H]. }
    constructor.
    - intros s. apply Sr.
    - intros s Hs. exists s. split; [now apply Sr|reflexivity].
    - intros [x j] w Hx. apply var_said in Hx. destruct Hx as (s0 & w0 & Hx). apply H in Hx. rewrite !claims_In. split; intros [s Hs]; exists s; [now apply H in Hs|apply H; tauto].
    - intros [x w] Hc. exists ((x, 0%nat), w). split; [|reflexivity]. apply claims_In in Hc. destruct Hc as [s Hs]. apply claims_In. exists s. now apply H.
    - intros s [[x j] w] Hc. now apply H in Hc.
    - intros [[x j] w] s Hc Hs. apply claims_In in Hc. destruct Hc as [s0 Hc]. apply H in Hc. rewrite (count_as _ _ [s]); [reflexivity|apply supporters_NoDup|repeat constructor; intros []|].
      intros s'. rewrite supporters_In, H. split.
      + intros [<-|[]]. split; [split; [exact Hs|tauto]|apply beq_refl].
      + intros [_ E]. apply beq_eq in E. now left.
    - intros s [x w] _ Hc. rewrite (count_as _ _ (map (fun xj => (xj, w)) (map (fun j => (x, j)) (seq 0 k)))); [now rewrite !map_length, seq_length|apply claims_of_NoDup| |].
      + assert (N : NoDup (map (fun j : nat => (x, j)) (seq 0 k))) by apply NoDup_pairs, seq_NoDup. induction N as [|y l N1 N2 IH]; [constructor|]. cbn. constructor; [|exact IH]. rewrite in_map_iff. intros (y' & E & Hy). injection E as ->. contradiction.
      + intros [[x' j] w']. rewrite in_map_iff, claims_of_In, H. unfold orig. cbn [fst snd]. split.
        * intros (xj & E & Hj). injection E as -> <-. apply in_map_iff in Hj. destruct Hj as (j' & E & Hj). injection E as <- <-. apply in_seq in Hj. split; [split; [exact Hc|lia]|apply beq_refl].
        * intros [[_ Hj] E]. apply beq_eq in E. injection E as -> ->. exists (x, j). split; [reflexivity|]. apply in_map_iff. exists j. split; [reflexivity|]. apply in_seq. lia.
    - lia.
    - exact Hk.
  Qed.
  (** [k] separate copies of the whole data set *)
  Theorem C83_separate_copies (ts' : list ((S * nat) * (V * nat) * W)) k : (0 < k)%nat -> (forall s i x j w, says ts' (s, i) ((x, j), w) = true <-> says ts s (x, w) = true /\ i = j /\ (i < k)%nat) ->
    copies ts ts' fst fst 1 1.
  Proof.
    intros Hk H. constructor.
    - intros [s i] Hs. apply src_said in Hs. destruct Hs as [[[x j] w] Hc]. apply H in Hc. apply src_said. exists (x, w). tauto.
    - intros s Hs. exists (s, 0%nat). split; [|reflexivity]. apply src_said in Hs. destruct Hs as [[x w] Hc]. apply src_said. exists ((x, 0%nat), w). now apply H.
    - intros [x j] w Hx. apply var_said in Hx. destruct Hx as ([s0 i0] & w0 & Hx). apply H in Hx. rewrite !claims_In. split; [intros [[s i] Hs]; apply H in Hs; exists s; tauto|]. intros [s Hs]. exists (s, j). apply H. repeat split; [exact Hs|lia].
    - intros [x w] Hc. exists ((x, 0%nat), w). split; [|reflexivity]. apply claims_In in Hc. destruct Hc as [s Hs]. apply claims_In. exists (s, 0%nat). now apply H.
    - intros [s i] [[x j] w] Hc. now apply H in Hc.
    - intros [[x j] w] s Hc Hs. apply claims_In in Hc. destruct Hc as [[s0 i0] Hc]. apply H in Hc. rewrite (count_as _ _ [(s, j)]); [reflexivity|apply supporters_NoDup|repeat constructor; intros []|].
      intros [s' i]. rewrite supporters_In, H. cbn [fst]. split.
      + intros [E|[]]. injection E as <- <-. split; [repeat split; [exact Hs|lia]|apply beq_refl].
      + intros [(_ & -> & _) E]. apply beq_eq in E. subst. now left.
    - intros [s i] [x w] Hs Hc. apply src_said in Hs. destruct Hs as [[[x0 j0] w0] Hs]. apply H in Hs. rewrite (count_as _ _ [((x, i), w)]); [reflexivity|apply claims_of_NoDup|repeat constructor; intros []|].
      intros [[x' j] w']. rewrite claims_of_In, H. unfold orig. cbn [fst snd] in *. split.
      + intros [E|[]]. injection E as <- <- <-. split; [repeat split; [exact Hc|lia]|apply beq_refl].
      + intros [(_ & -> & _) E]. apply beq_eq in E. injection E as -> ->. now left.
    - lia.
    - lia.
  Qed.
End Ways.

(** ** Non-vacuity: such data sets exist for every data set and every number of copies *)
Section Construct.
  Context {S V W : Type} {ES : Eqb S} {EV : Eqb V} {EW : Eqb W}.
  Definition copy_sources (k : nat) (ts : list (S * V * W)) : list ((S * nat) * V * W) := flat_map (fun t => map (fun i => ((t_src t, i), t_var t, t_val t)) (seq 0 k)) ts.
  Definition copy_variables (k : nat) (ts : list (S * V * W)) : list (S * (V * nat) * W) := flat_map (fun t => map (fun j => (t_src t, (t_var t, j), t_val t)) (seq 0 k)) ts.
  Definition copy_all (k : nat) (ts : list (S * V * W)) : list ((S * nat) * (V * nat) * W) := flat_map (fun t => map (fun i => ((t_src t, i), (t_var t, i), t_val t)) (seq 0 k)) ts.
  (** the first match in a block of copies *)
  Lemma find_block {A B : Type} (m : nat -> A) (w : B) (ev : A -> B) (P : A -> bool) l : (forall i, ev (m i) = w) ->
    option_map ev (find P (map m l)) = if existsb (fun i => P (m i)) l then Some w else None.
  Proof. intros Hw. induction l as [|i l IH]; [reflexivity|]. cbn. destruct (P (m i)); [cbn; now rewrite Hw|exact IH]. Qed.
  Lemma find_app {A} (P : A -> bool) l m : find P (l ++ m) = match find P l with Some x => Some x | None => find P m end.
  Proof. induction l as [|x l IH]; [reflexivity|]. cbn. destruct (P x); [reflexivity|exact IH]. Qed.
  Lemma copy_says {S' V' : Type} {ES' : Eqb S'} {EV' : Eqb V'} (m : S * V * W -> nat -> S' * V' * W) k ts s' x' s x (ok : Prop) :
    (forall t i, t_val (m t i) = t_val t) ->
    (forall t, (exists i, (i < k)%nat /\ t_src (m t i) = s' /\ t_var (m t i) = x') <-> t_src t = s /\ t_var t = x /\ ok) ->
    forall w, says (flat_map (fun t => map (m t) (seq 0 k)) ts) s' (x', w) = true <-> says ts s (x, w) = true /\ ok.
  Proof.
    intros Hv Hm w. rewrite !says_true. cbn [fst snd].
    assert (Q : ok -> first_claim (flat_map (fun t => map (m t) (seq 0 k)) ts) s' x' = first_claim ts s x).
    { intros K. induction ts as [|t l IH]; [reflexivity|]. cbn [flat_map]. rewrite first_claim_app, IH. unfold first_claim at 1. rewrite (find_block (m t) (t_val t) t_val _ _ (Hv t)).
      unfold first_claim at 2. cbn [find]. destruct (existsb (fun i => beq (t_src (m t i)) s' && beq (t_var (m t i)) x') (seq 0 k)) eqn:Ex.
      - apply existsb_exists in Ex. destruct Ex as (i & Hi & E). apply andb_true_iff in E. destruct E as [E1 E2]. apply beq_eq in E1, E2. apply in_seq in Hi.
        destruct (proj1 (Hm t)) as (A & B & _); [exists i; split; [lia|auto]|]. rewrite A, B, !beq_refl. reflexivity.
      - destruct (beq_spec (t_src t) s) as [A|N]; [|reflexivity]. destruct (beq_spec (t_var t) x) as [B|N]; [|reflexivity]. exfalso.
        destruct (proj2 (Hm t) (conj A (conj B K))) as (i & Hi & E1 & E2). assert (Ex' : existsb (fun i => beq (t_src (m t i)) s' && beq (t_var (m t i)) x') (seq 0 k) = true); [|congruence].
        apply existsb_exists. exists i. split; [apply in_seq; lia|]. now rewrite E1, E2, !beq_refl. }
    split.
    - intros H. assert (K : ok).
      { apply first_claim_In, in_flat_map in H. destruct H as (t & _ & H). apply in_map_iff in H. destruct H as (i & E & Hi). apply in_seq in Hi. apply (Hm t). exists i. rewrite E. split; [lia|auto]. }
      split; [|exact K]. now rewrite <- (Q K).
    - intros [H K]. now rewrite (Q K).
  Qed.
  Lemma copy_sources_says k ts s i c : says (copy_sources k ts) (s, i) c = true <-> says ts s c = true /\ (i < k)%nat.
  Proof.
    destruct c as [x w]. apply copy_says; [reflexivity|]. intros t. split.
    - intros (i' & Hi & E & <-). injection E as <- <-. auto.
    - intros (<- & <- & Hi). exists i. auto.
  Qed.
  Lemma copy_variables_says k ts s x j w : says (copy_variables k ts) s ((x, j), w) = true <-> says ts s (x, w) = true /\ (j < k)%nat.
  Proof.
    apply copy_says; [reflexivity|]. intros t. split.
    - intros (i' & Hi & <- & E). injection E as <- <-. auto.
    - intros (<- & <- & Hi). exists j. auto.
  Qed.
  Lemma copy_all_says k ts s i x j w : says (copy_all k ts) (s, i) ((x, j), w) = true <-> says ts s (x, w) = true /\ i = j /\ (i < k)%nat.
  Proof.
    apply copy_says; [reflexivity|]. intros t. split.
    - intros (i' & Hi & E & E'). injection E as <- <-. injection E' as <- <-. auto.
    - intros (<- & <- & <- & Hi). exists i. auto.
  Qed.
End Construct.
Module CopiesExamples.
  Import ListNotations.
  Lemma builds {A B D : Type} {EA : Eqb A} {EB : Eqb B} {ED : Eqb D} (l : list (A * B * D)) : NoDup (sv_pairs l) -> exists d : dataset A B D XR, build false (real_imp None) l = Ok d.
  Proof.
    intros ND. destruct (build_strict (F:=XR) None l) as [(_ & _ & d & E & _)|[(_ & N & _)|(s & x & H & _)]].
    - exists d. exact E.
    - exfalso. apply N. intros c c' q _ _ H. unfold imp_val in H. destruct (_ && _)%bool; discriminate.
    - exfalso. exact (first_repeat_not_NoDup _ _ _ H ND).
  Qed.
  Lemma by_distinct {A} {EA : Eqb A} (l : list A) : distinct l = l -> NoDup l.
  Proof. intros <-. apply distinct_NoDup. Qed.
  Definition some_data : list (nat * nat * nat) := [(1, 0, 1); (1, 7, 1); (2, 0, 5); (3, 7, 1)]%nat.
  (** three copies of the sources: Sums gives every copy the scores of its original *)
  Example three_copies a : copy_ok 3 1 a -> exists d d' r r' o o', build false (real_imp None) some_data = Ok d /\ build false (real_imp None) (copy_sources 3 some_data) = Ok d' /\
    run (fun _ => Fin 0) 9 (AObj a VOTED (IFixed 5 0) None) d = (Ok r, o) /\ run (fun _ => Fin 0) 9 (AObj a VOTED (IFixed 5 0) None) d' = (Ok r', o') /\
    same_scores (copy_sources 3 some_data) fst (fun x => x) r r'.
  Proof.
    intros Ha.
    assert (E1 : exists d : dataset nat nat nat XR, build false (real_imp None) some_data = Ok d) by (apply builds, by_distinct; reflexivity).
    assert (E2 : exists d : dataset (nat * nat) nat nat XR, build false (real_imp None) (copy_sources 3 some_data) = Ok d) by (apply builds, by_distinct; reflexivity).
    destruct E1 as [d E1]. destruct E2 as [d' E2]. exists d, d'.
    assert (A : a <> UnboundedSums) by (intros ->; exact Ha). assert (B : (Z.to_nat 5 < 9)%nat) by (change (Z.to_nat 5) with 5%nat; lia).
    destruct (C28_fixed_returns false (real_imp None) some_data d E1 (fun _ => Fin 0) 9 a VOTED 5 0 None ltac:(discriminate) A ltac:(discriminate) B) as [r Er].
    destruct (C28_fixed_returns false (real_imp None) (copy_sources 3 some_data) d' E2 (fun _ => Fin 0) 9 a VOTED 5 0 None ltac:(discriminate) A ltac:(discriminate) B) as [r' Er'].
    exists r, r'. destruct (run (fun _ => Fin 0) 9 (AObj a VOTED (IFixed 5 0) None) d) as [q o] eqn:R1. destruct (run (fun _ => Fin 0) 9 (AObj a VOTED (IFixed 5 0) None) d') as [q' o'] eqn:R2. cbn [fst] in Er, Er'. subst q q'.
    exists o, o'. split; [exact E1|]. split; [exact E2|]. split; [reflexivity|]. split; [reflexivity|].
    assert (Dk : data_ok some_data a) by (destruct a; try exact Logic.I; exists 1%nat; split; [now left|exact (le_n 2)]).
    assert (Cp : copies some_data (copy_sources 3 some_data) fst (fun x => x) 3 1) by exact (C83_copied_sources some_data _ 3 ltac:(lia) (copy_sources_says 3 some_data)).
    revert E2 R2. generalize (copy_sources 3 some_data) Cp. intros ts' Cp' E2 R2.
    eapply C83_copies; [exact E1|exact E2|exact Cp'|exact Ha|exact Dk|exact R1|exact R2|left; discriminate].
  Qed.
  (** TruthFinder counts the sources: two copies of the only source make its claim more believable. *)
  Definition one_claim : list (nat * nat * nat) := [(1, 0, 1)]%nat.
  Example truthfinder_counts : exists d d' r r' o o', build false (real_imp None) one_claim = Ok d /\ build false (real_imp None) (copy_sources 2 one_claim) = Ok d' /\
    run (fun _ => Fin 0) 9 (AObj (TruthFinder (Fin 0) (Fin 1) (Fin (1/2))) FIXED (IFixed 1 0) None) d = (Ok r, o) /\
    run (fun _ => Fin 0) 9 (AObj (TruthFinder (Fin 0) (Fin 1) (Fin (1/2))) FIXED (IFixed 1 0) None) d' = (Ok r', o') /\
    belief_of r (0, 1)%nat = Some (Fin (2/3)) /\ belief_of r' (0, 1)%nat = Some (Fin (4/5)).
  Proof.
    assert (E1 : exists d : dataset nat nat nat XR, build false (real_imp None) one_claim = Ok d) by (apply builds, by_distinct; reflexivity).
    assert (E2 : exists d : dataset (nat * nat) nat nat XR, build false (real_imp None) (copy_sources 2 one_claim) = Ok d) by (apply builds, by_distinct; reflexivity).
    destruct E1 as [d E1]. destruct E2 as [d' E2]. exists d, d'. set (a := TruthFinder (Fin 0) (Fin 1) (Fin (1/2)) : alg XR).
    assert (A : a <> UnboundedSums) by discriminate. assert (B : (Z.to_nat 1 < 9)%nat) by (change (Z.to_nat 1) with 1%nat; lia). assert (P : params_ok a) by (cbn; lra).
    destruct (C28_fixed_returns false (real_imp None) one_claim d E1 (fun _ => Fin 0) 9 a FIXED 1 0 None ltac:(discriminate) A ltac:(discriminate) B) as [r Er].
    destruct (C28_fixed_returns false (real_imp None) (copy_sources 2 one_claim) d' E2 (fun _ => Fin 0) 9 a FIXED 1 0 None ltac:(discriminate) A ltac:(discriminate) B) as [r' Er'].
    exists r, r'. destruct (run (fun _ => Fin 0) 9 (AObj a FIXED (IFixed 1 0) None) d) as [q o] eqn:R1. destruct (run (fun _ => Fin 0) 9 (AObj a FIXED (IFixed 1 0) None) d') as [q' o'] eqn:R2. cbn [fst] in Er, Er'. subst q q'.
    exists o, o'. split; [exact E1|]. split; [exact E2|]. split; [reflexivity|]. split; [reflexivity|].
    destruct (fixed_rounds None false one_claim d E1 _ _ a FIXED 1 0 None r o P Logic.I A R1) as (x0 & _ & S0 & _ & Rp). cbn in S0. injection S0 as <-.
    destruct (fixed_rounds None false (copy_sources 2 one_claim) d' E2 _ _ a FIXED 1 0 None r' o' P Logic.I A R2) as (y0 & _ & S0 & _ & Rp'). cbn in S0. injection S0 as <-.
    assert (X1 : exp (1 * ln (1/2)) = 1/2) by (rewrite Rmult_1_l; apply exp_ln; lra).
    assert (X2 : exp (2 * ln (1/2)) = 1/4) by (replace (2 * ln (1/2)) with (ln (1/2) + ln (1/2)) by ring; rewrite exp_plus, exp_ln; lra).
    split.
    - refine (eq_trans (reports_belief one_claim r _ (0, 1)%nat Rp ltac:(apply mem_In; reflexivity)) _). f_equal. f_equal. unfold a. change (Z.to_nat 1) with 1%nat. cbn [rounds step_of snd fst tf_step].
      assert (T : forall u, total_trust one_claim u (0, 1)%nat = u 1%nat) by (intros; cbn; lra).
      assert (Q : forall u, rsum (fun c' => implication None c' (0, 1)%nat * u c') (claims one_claim) = 0) by (intros; cbn; lra).
      rewrite T, Q. replace (- (1 * (- ln (1 - 1 / 2) + 0 * 0))) with (1 * ln (1/2)) by (replace (1 - 1/2) with (1/2) by lra; ring). rewrite X1. field.
    - refine (eq_trans (reports_belief (copy_sources 2 one_claim) r' _ (0, 1)%nat Rp' ltac:(apply mem_In; reflexivity)) _). f_equal. f_equal. unfold a. change (Z.to_nat 1) with 1%nat. cbn [rounds step_of snd fst tf_step].
      assert (T : forall u, total_trust (copy_sources 2 one_claim) u (0, 1)%nat = u (1, 0)%nat + u (1, 1)%nat) by (intros; cbn; lra).
      assert (Q : forall u, rsum (fun c' => implication None c' (0, 1)%nat * u c') (claims (copy_sources 2 one_claim)) = 0) by (intros; cbn; lra).
      rewrite T, Q. replace (- (1 * (- ln (1 - 1 / 2) + - ln (1 - 1 / 2) + 0 * 0))) with (2 * ln (1/2)) by (replace (1 - 1/2) with (1/2) by lra; ring). rewrite X2. field.
  Qed.
  (** the other two ways of copying *)
  Example other_ways : copies some_data (copy_variables 4 some_data) (fun s => s) fst 1 4 /\ copies some_data (copy_all 2 some_data) fst fst 1 1.
  Proof. split; [apply C83_copied_variables|apply C83_separate_copies with (k := 2%nat)]; try lia; [apply copy_variables_says|apply copy_all_says]. Qed.
End CopiesExamples.
