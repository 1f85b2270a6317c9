(** Two data sets with the same structure under a renaming of labels; the recurrences do not see the difference. *)
From Coq Require Import Reals Lra.
From Verif Require Import Base Num Sparse Spec SpecAlg Dataset DatasetProofs DatasetRep Iterators Algorithms Driver Distance Ranking Rounds
  AlgRep AlgRounds AlgTF AlgPack.
Local Open Scope R_scope.

Lemma Permutation_filter {A} (p : A -> bool) l m : Permutation l m -> Permutation (filter p l) (filter p m).
Proof.
  induction 1 as [|x l m H IH|x y l|l m n H1 IH1 H2 IH2]; cbn.
  - constructor.
  - destruct (p x); [now constructor|exact IH].
  - destruct (p x), (p y); try apply Permutation_refl. apply perm_swap.
  - now transitivity (filter p m).
Qed.
Lemma filter_map {A B} (g : A -> B) (p : B -> bool) (q : A -> bool) l : (forall x, In x l -> p (g x) = q x) -> filter p (map g l) = map g (filter q l).
Proof.
  induction l as [|x l IH]; cbn; intros H; [reflexivity|]. rewrite (H x) by auto. rewrite IH by auto. destruct (q x); reflexivity.
Qed.

Section Iso.
  Context {S V W : Type} {ES : Eqb S} {EV : Eqb V} {EW : Eqb W} {S' V' W' : Type} {ES' : Eqb S'} {EV' : Eqb V'} {EW' : Eqb W'}.
  Notation claim := (V * W)%type.
  Notation claim' := (V' * W')%type.
  Variables (fS : S -> S') (fV : V -> V') (fW : W -> W').
  Definition fC (c : claim) : claim' := (fV (fst c), fW (snd c)).
  Record iso (ts : list (S * V * W)) (ts' : list (S' * V' * W')) : Prop := {
    iso_src : Permutation (map fS (sources ts)) (sources ts');
    iso_cl : Permutation (map fC (claims ts)) (claims ts');
    iso_says : forall s c, In s (sources ts) -> In c (claims ts) -> says ts' (fS s) (fC c) = says ts s c;
    iso_var : forall c c', In c (claims ts) -> In c' (claims ts) -> fV (fst c) = fV (fst c') -> fst c = fst c'
  }.
  Variables (ts : list (S * V * W)) (ts' : list (S' * V' * W')).
  Hypothesis I : iso ts ts'.

  Lemma fS_inj s s' : In s (sources ts) -> In s' (sources ts) -> fS s = fS s' -> s = s'.
  Proof.
    pose proof (Permutation_NoDup (Permutation_sym (iso_src _ _ I)) (sources_NoDup ts')) as ND.
    induction (sources ts) as [|a l IH]; [intros []|]. cbn in ND. inversion ND as [|? ? Hn ND']; subst. intros [->|H1] [->|H2] E; auto.
    - exfalso. apply Hn. rewrite E. now apply in_map.
    - exfalso. apply Hn. rewrite <- E. now apply in_map.
  Qed.
  Lemma fC_inj c c' : In c (claims ts) -> In c' (claims ts) -> fC c = fC c' -> c = c'.
  Proof.
    pose proof (Permutation_NoDup (Permutation_sym (iso_cl _ _ I)) (claims_NoDup ts')) as ND.
    induction (claims ts) as [|a l IH]; [intros []|]. cbn in ND. inversion ND as [|? ? Hn ND']; subst. intros [->|H1] [->|H2] E; auto.
    - exfalso. apply Hn. rewrite E. now apply in_map.
    - exfalso. apply Hn. rewrite <- E. now apply in_map.
  Qed.
  Lemma beq_fC c c' : In c (claims ts) -> In c' (claims ts) -> beq (fC c) (fC c') = beq c c'.
  Proof.
    intros H1 H2. destruct (beq_spec (fC c) (fC c')) as [E|N], (beq_spec c c') as [E'|N']; try reflexivity.
    - exfalso. apply N'. now apply fC_inj.
    - exfalso. apply N. now rewrite E'.
  Qed.
  Lemma beq_fV c c' : In c (claims ts) -> In c' (claims ts) -> beq (fst (fC c)) (fst (fC c')) = beq (fst c) (fst c').
  Proof.
    intros H1 H2. destruct (beq_spec (fst (fC c)) (fst (fC c'))) as [E|N], (beq_spec (fst c) (fst c')) as [E'|N']; try reflexivity.
    - exfalso. apply N'. now apply (iso_var _ _ I).
    - exfalso. apply N. cbn. now rewrite E'.
  Qed.
  Lemma claims_of_iso s : In s (sources ts) -> Permutation (map fC (claims_of ts s)) (claims_of ts' (fS s)).
  Proof.
    intros Hs. unfold claims_of. rewrite <- (filter_map fC (says ts' (fS s)) (says ts s)) by (intros c Hc; now apply (iso_says _ _ I)).
    apply Permutation_filter, (iso_cl _ _ I).
  Qed.
  Lemma supporters_iso c : In c (claims ts) -> Permutation (map fS (supporters ts c)) (supporters ts' (fC c)).
  Proof.
    intros Hc. unfold supporters. rewrite <- (filter_map fS (fun s => says ts' s (fC c)) (fun s => says ts s c)) by (intros s Hs; now apply (iso_says _ _ I)).
    apply Permutation_filter, (iso_src _ _ I).
  Qed.
  Lemma rivals_iso c : In c (claims ts) -> Permutation (map fC (rivals ts c)) (rivals ts' (fC c)).
  Proof.
    intros Hc. unfold rivals. rewrite <- (filter_map fC (fun c' => beq (fst (fC c)) (fst c')) (fun c' => beq (fst c) (fst c'))) by (intros s Hs; now apply beq_fV).
    apply Permutation_filter, (iso_cl _ _ I).
  Qed.
  Lemma claims_of_cl s c : In c (claims_of ts s) -> In c (claims ts).
  Proof. unfold claims_of. rewrite filter_In. tauto. Qed.
  Lemma supporters_src s c : In s (supporters ts c) -> In s (sources ts).
  Proof. unfold supporters. rewrite filter_In. tauto. Qed.
  Lemma rivals_cl c c' : In c' (rivals ts c) -> In c' (claims ts).
  Proof. unfold rivals. rewrite filter_In. tauto. Qed.

  (** functions of labels that agree along the renaming *)
  Definition simS (t : S -> R) (t' : S' -> R) : Prop := forall s, In s (sources ts) -> t' (fS s) = t s.
  Definition simC (g : claim -> R) (g' : claim' -> R) : Prop := forall c, In c (claims ts) -> g' (fC c) = g c.
  Definition sim (x : rscores) (x' : rscores) : Prop := simS (fst x) (fst x') /\ simC (snd x) (snd x').

  Lemma rsum_perm_map {A B} (g : A -> B) l l' (h : A -> R) (h' : B -> R) : Permutation (map g l) l' -> (forall x, In x l -> h' (g x) = h x) -> rsum h' l' = rsum h l.
  Proof. intros P H. rewrite <- (rsum_Permutation h' _ _ P), rsum_map. now apply rsum_ext. Qed.
  Lemma rmax_perm_map {A B} (g : A -> B) l l' (h : A -> R) (h' : B -> R) : Permutation (map g l) l' -> (forall x, In x l -> h' (g x) = h x) -> rmax h' l' = rmax h l.
  Proof. intros P H. rewrite <- (rmax_Permutation h' _ _ P). unfold rmax. rewrite map_map. f_equal. now apply map_ext_in. Qed.
  Lemma rsum_src t t' : simS t t' -> rsum t' (sources ts') = rsum t (sources ts).
  Proof. intros H. apply (rsum_perm_map fS); [apply I|exact H]. Qed.
  Lemma rsum_cl g g' : simC g g' -> rsum g' (claims ts') = rsum g (claims ts).
  Proof. intros H. apply (rsum_perm_map fC); [apply I|exact H]. Qed.
  Lemma rmax_src t t' : simS t t' -> rmax t' (sources ts') = rmax t (sources ts).
  Proof. intros H. apply (rmax_perm_map fS); [apply I|exact H]. Qed.
  Lemma rmax_cl g g' : simC g g' -> rmax g' (claims ts') = rmax g (claims ts).
  Proof. intros H. apply (rmax_perm_map fC); [apply I|exact H]. Qed.
  Lemma total_belief_sim g g' : simC g g' -> simS (total_belief ts g) (total_belief ts' g').
  Proof. intros H s Hs. apply (rsum_perm_map fC); [now apply claims_of_iso|]. intros c Hc. apply H. now apply claims_of_cl in Hc. Qed.
  Lemma total_trust_sim t t' : simS t t' -> simC (total_trust ts t) (total_trust ts' t').
  Proof. intros H c Hc. apply (rsum_perm_map fS); [now apply supporters_iso|]. intros s Hs. apply H. now apply supporters_src in Hs. Qed.
  Lemma rivals_sum_sim g g' : simC g g' -> simC (fun c => rsum g (rivals ts c)) (fun c => rsum g' (rivals ts' c)).
  Proof. intros H c Hc. apply (rsum_perm_map fC); [now apply rivals_iso|]. intros s Hs. apply H. now apply rivals_cl in Hs. Qed.
  Lemma n_claims_sim : simS (n_claims ts) (n_claims ts').
  Proof. intros s Hs. unfold n_claims. rewrite <- (Permutation_length (claims_of_iso s Hs)). now rewrite map_length. Qed.
  Lemma n_supporters_sim : simC (n_supporters ts) (n_supporters ts').
  Proof. intros s Hs. unfold n_supporters. rewrite <- (Permutation_length (supporters_iso s Hs)). now rewrite map_length. Qed.
  Lemma by_max_src t t' : simS t t' -> simS (by_max (sources ts) t) (by_max (sources ts') t').
  Proof. intros H s Hs. unfold by_max. now rewrite (rmax_src _ _ H), (H s Hs). Qed.
  Lemma by_max_cl g g' : simC g g' -> simC (by_max (claims ts) g) (by_max (claims ts') g').
  Proof. intros H s Hs. unfold by_max. now rewrite (rmax_cl _ _ H), (H s Hs). Qed.
  Lemma src_count : length (sources ts') = length (sources ts).
  Proof. rewrite <- (Permutation_length (iso_src _ _ I)). apply map_length. Qed.

  Lemma prior_sim p : match prior_spec ts p, prior_spec ts' p with Some g, Some g' => simC g g' | None, None => True | _, _ => False end.
  Proof.
    destruct p; cbn; trivial.
    - intros c _. reflexivity.
    - intros c Hc. rewrite (n_supporters_sim c Hc). f_equal. apply (rivals_sum_sim _ _ n_supporters_sim c Hc).
    - apply n_supporters_sim.
    - intros c Hc. rewrite <- (Permutation_length (rivals_iso c Hc)). now rewrite map_length.
  Qed.
  Lemma start_sim a p : match start ts a p, start ts' a p with Some x, Some x' => sim x x' | None, None => True | _, _ => False end.
  Proof.
    pose proof (prior_sim p) as H.
    destruct a as [| | | |? ? []| |]; cbn [start]; try (destruct (prior_spec ts p), (prior_spec ts' p); cbn; try contradiction; trivial; split; [intros s _; reflexivity|exact H]); trivial.
    - split; [intros s _|intros c _]; reflexivity.
    - split; [intros s _; reflexivity|]. intros c Hc. cbn. now rewrite (n_supporters_sim c Hc), src_count.
  Qed.

  Variables (f : option (V -> W -> W -> option R)) (f' : option (V' -> W' -> W' -> option R)).
  (** the implication functions agree along the renaming *)
  Definition same_implications : Prop :=
    match f, f' with Some g, Some g' => forall x w w', g' (fV x) (fW w) (fW w') = g x w w' | None, None => True | _, _ => False end.
  Hypothesis Hf : same_implications.
  Lemma implication_sim c c' : In c (claims ts) -> In c' (claims ts) -> implication f' (fC c) (fC c') = implication f c c'.
  Proof.
    intros H1 H2. unfold implication, same_implications in *. destruct f as [g|], f' as [g'|]; try contradiction; [|reflexivity].
    rewrite beq_fV, beq_fC by assumption. destruct (beq (fst c) (fst c') && negb (beq c c')); [|reflexivity]. cbn. now rewrite Hf.
  Qed.
  Lemma step_sim a x x' : sim x x' -> sim (step_of f ts a x) (step_of f' ts' a x').
  Proof.
    intros [Ht Hc]. assert (Inv : forall t t', simS t t' -> simC (invested ts t) (invested ts' t')).
    { intros t t' H. apply total_trust_sim. intros s Hs. unfold invests. now rewrite (H s Hs), (n_claims_sim s Hs). }
    assert (Ret : simS (returned ts x) (returned ts' x')).
    { intros s Hs. apply (rsum_perm_map fC); [now apply claims_of_iso|]. intros c Hx. apply claims_of_cl in Hx.
      rewrite (Hc c Hx), (Inv _ _ Ht c Hx). unfold invests. now rewrite (Ht s Hs), (n_claims_sim s Hs). }
    destruct a as [| |[]|[]|[] [] ?|[]|]; cbn [step_of]; try (split; [exact Ht|exact Hc]).
    - pose proof (total_belief_sim _ _ Hc) as T. split; cbn [fst snd sums_step]; [now apply by_max_src|now apply by_max_cl, total_trust_sim].
    - pose proof (total_belief_sim _ _ Hc) as T.
      assert (T' : simS (fun s => ln (n_claims ts s) * (total_belief ts (snd x) s / n_claims ts s)) (fun s => ln (n_claims ts' s) * (total_belief ts' (snd x') s / n_claims ts' s)))
        by (intros s Hs; now rewrite (T s Hs), (n_claims_sim s Hs)).
      split; cbn [fst snd avlog_step]; [now apply by_max_src|now apply by_max_cl, total_trust_sim].
    - split; cbn [fst snd inv_step]; [now apply by_max_src|]. apply by_max_cl. intros c Hx. now rewrite (Inv _ _ Ret c Hx).
    - split; cbn [fst snd pooled_step]; [now apply by_max_src|]. apply by_max_cl.
      assert (Hh : simC (fun c => Rpower (invested ts (returned ts x) c) r) (fun c => Rpower (invested ts' (returned ts' x') c) r)) by (intros c Hx; now rewrite (Inv _ _ Ret c Hx)).
      intros c Hx. rewrite (Inv _ _ Ret c Hx). do 2 f_equal. apply (rivals_sum_sim _ _ Hh c Hx).
    - assert (Tau : simC (total_trust ts (fun s => - ln (1 - fst x s))) (total_trust ts' (fun s => - ln (1 - fst x' s)))).
      { apply total_trust_sim. intros s Hs. now rewrite (Ht s Hs). }
      assert (B : simC (snd (tf_step ts f r r0 x)) (snd (tf_step ts' f' r r0 x'))).
      { intros c Hx. cbn [snd tf_step]. rewrite (Tau c Hx).
        assert (E : forall q q' : R, q' = q -> 1 / (1 + exp (- (r0 * (total_trust ts (fun s => - ln (1 - fst x s)) c + r * q')))) = 1 / (1 + exp (- (r0 * (total_trust ts (fun s => - ln (1 - fst x s)) c + r * q))))) by (intros q q' ->; reflexivity).
        apply E. apply (rsum_perm_map fC); [apply I|]. intros c' Hx'. now rewrite (implication_sim c' c), (Tau c' Hx'). }
      split; [|exact B]. intros s Hs. cbn [fst tf_step]. rewrite (n_claims_sim s Hs). f_equal. exact (total_belief_sim _ _ B s Hs).
    - assert (L : simS (crh_loss_spec ts (snd x)) (crh_loss_spec ts' (snd x'))).
      { intros s Hs. apply (rsum_perm_map fC); [now apply claims_of_iso|]. intros c Hx. apply claims_of_cl in Hx.
        apply (rsum_perm_map fC); [now apply rivals_iso|]. intros c' Hx'. apply rivals_cl in Hx'. now rewrite (Hc c' Hx'), beq_fC. }
      assert (T : simS (fst (crh_step ts r x)) (fst (crh_step ts' r x'))).
      { intros s Hs. cbn [fst crh_step]. rewrite (L s Hs). do 3 f_equal. apply rsum_src. intros s' Hs'. now rewrite (L s' Hs'). }
      split; [exact T|]. intros c Hx. cbn [snd crh_step].
      change (total_trust ts' (fst (crh_step ts' r x')) (fC c) / rsum (fst (crh_step ts' r x')) (sources ts') = total_trust ts (fst (crh_step ts r x)) c / rsum (fst (crh_step ts r x)) (sources ts)).
      now rewrite (total_trust_sim _ _ T c Hx), (rsum_src _ _ T).
    - pose proof (total_belief_sim _ _ Hc) as T. pose proof (total_trust_sim _ _ T) as T2. unfold usums_step, downscale. split; cbn [fst snd].
      + intros s Hs. now rewrite (rmax_src _ _ T), (T s Hs).
      + intros c Hx. now rewrite (rmax_cl _ _ T2), (T2 c Hx).
  Qed.
  Lemma rounds_sim a x x' k : sim x x' -> sim (rounds (step_of f ts a) x k) (rounds (step_of f' ts' a) x' k).
  Proof. intros H. induction k as [|k IH]; [exact H|]. cbn [rounds]. now apply step_sim. Qed.
  Lemma compared_sim a x x' : sim x x' -> simS (fst (compared f ts a x)) (fst (compared f' ts' a x')) /\ simS (snd (compared f ts a x)) (snd (compared f' ts' a x')).
  Proof.
    intros H. pose proof (step_sim a x x' H) as [H1 _]. destruct H as [Ht Hc].
    destruct a as [| |[]|[]|[] [] ?|[]|]; cbn [compared fst snd]; split; try exact Ht; try exact H1. now apply total_belief_sim.
  Qed.

  (** iterators see the same distances and the same agreement of rankings *)
  Lemma vall_eq_fv {A} (u v : A -> R) (l : list A) : @vall_eq XR (map (fun x => Fin (u x)) l) (map (fun x => Fin (v x)) l) = forallb (fun x => reqb (u x) (v x)) l.
  Proof. unfold vall_eq. induction l as [|x l IH]; [reflexivity|]. change (@zipw (num XR) (num XR) bool) with (@zipw xr xr bool) in *. cbn in *. f_equal. exact IH. Qed.
  Lemma forallb_perm_map {A B} (g : A -> B) l l' (p : A -> bool) (p' : B -> bool) : Permutation (map g l) l' -> (forall x, In x l -> p' (g x) = p x) -> forallb p' l' = forallb p l.
  Proof.
    intros P H. destruct (forallb p l) eqn:E.
    - apply forallb_forall. intros y Hy. apply (Permutation_in _ (Permutation_sym P)) in Hy. apply in_map_iff in Hy. destruct Hy as (x & <- & Hx).
      rewrite (H x Hx). rewrite forallb_forall in E. auto.
    - destruct (forallb p' l') eqn:E'; [|reflexivity]. exfalso. assert (forallb p l = true); [|congruence].
      apply forallb_forall. intros x Hx. rewrite <- (H x Hx). rewrite forallb_forall in E'. apply E'. apply (Permutation_in _ P). now apply in_map.
  Qed.
  Lemma rrank_sim u u' : simS u u' -> forall s, In s (sources ts) -> rrank u' (sources ts') (fS s) = rrank u (sources ts) s.
  Proof.
    intros H s Hs. apply rrank_set; [|now apply H]. intros v. rewrite !in_map_iff. split.
    - intros (s' & <- & Hs'). apply (Permutation_in _ (Permutation_sym (iso_src _ _ I))) in Hs'. apply in_map_iff in Hs'. destruct Hs' as (z & <- & Hz).
      exists z. split; [now rewrite H|exact Hz].
    - intros (z & <- & Hz). exists (fS z). split; [now apply H|]. apply (Permutation_in _ (iso_src _ _ I)). now apply in_map.
  Qed.
  Lemma rrank_simC u u' : simC u u' -> forall s, In s (claims ts) -> rrank u' (claims ts') (fC s) = rrank u (claims ts) s.
  Proof.
    intros H s Hs. apply rrank_set; [|now apply H]. intros v. rewrite !in_map_iff. split.
    - intros (s' & <- & Hs'). apply (Permutation_in _ (Permutation_sym (iso_cl _ _ I))) in Hs'. apply in_map_iff in Hs'. destruct Hs' as (z & <- & Hz).
      exists z. split; [now rewrite H|exact Hz].
    - intros (z & <- & Hz). exists (fC z). split; [now apply H|]. apply (Permutation_in _ (iso_cl _ _ I)). now apply in_map.
  Qed.
  Lemma compare_sim u v u' v' : simS u u' -> simS v v' -> forall it : iterator XR,
    compare it (tvec ts' u') (tvec ts' v') = compare it (tvec ts u) (tvec ts v).
  Proof.
    intros Hu Hv it. destruct it as [l n|m thr lim n cur|t n c]; [reflexivity| |].
    - cbn [compare]. assert (E : get_distance m (tvec ts' u') (tvec ts' v') = get_distance m (tvec ts u) (tvec ts v)); [|now rewrite E].
      destruct m; [| | | |reflexivity]; unfold tvec.
      + rewrite !distance_l1. do 2 f_equal. apply rsum_src. intros s Hs. now rewrite Hu, Hv.
      + rewrite !distance_l2. do 3 f_equal. apply rsum_src. intros s Hs. now rewrite Hu, Hv.
      + destruct (sources ts) as [|s0 l0] eqn:E0.
        * pose proof src_count as L. rewrite E0 in L. destruct (sources ts'); [reflexivity|discriminate].
        * rewrite <- E0. rewrite !distance_linf.
          -- do 2 f_equal. apply rmax_src. intros s Hs. now rewrite Hu, Hv.
          -- rewrite E0. discriminate.
          -- pose proof src_count as L. rewrite E0 in L. destruct (sources ts'); discriminate.
      + rewrite !distance_cos.
        rewrite (rsum_src (fun s => u s * u s) (fun s => u' s * u' s)) by (intros s Hs; now rewrite Hu).
        rewrite (rsum_src (fun s => v s * v s) (fun s => v' s * v' s)) by (intros s Hs; now rewrite Hv).
        rewrite (rsum_src (fun s => u s * v s) (fun s => u' s * v' s)) by (intros s Hs; now rewrite Hu, Hv). reflexivity.
    - cbn [compare]. unfold tvec. rewrite !ranking_fv, !vall_eq_fv.
      rewrite (forallb_perm_map fS (sources ts) (sources ts') (fun x => reqb (INR (rrank u (sources ts) x)) (INR (rrank v (sources ts) x)))); [reflexivity|apply I|].
      intros s Hs. cbn beta. now rewrite (rrank_sim _ _ Hu s Hs), (rrank_sim _ _ Hv s Hs).
  Qed.
End Iso.
