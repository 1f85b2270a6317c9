(** All algorithms at once, in exact arithmetic and for well-behaved parameters: initial scores, one round, the two vectors
    handed to the iterator, at the level of labels; and the iterators' view of such vectors. *)
From Coq Require Import Reals Lra.
From Verif Require Import Base Num Sparse Spec SpecAlg Dataset DatasetProofs DatasetRep Iterators Algorithms Driver Distance Ranking Rounds
  AlgRep AlgRounds AlgTF PropsData PropsIter PropsRun.
Local Open Scope R_scope.

(** number of distinct values of [f] on [l] below [f x] *)
Definition rrank {A} (f : A -> R) (l : list A) (x : A) : nat :=
  length (nodup Req_EM_T (filter (fun y => rltb y (f x)) (map f l))).

Lemma smaller_values_fin {A} (f : A -> R) (l : list A) (x : A) :
  smaller_values (map (fun a => Fin (f a)) l) (Fin (f x)) = rrank f l x.
Proof.
  unfold smaller_values, rrank.
  rewrite <- (map_length Fin (nodup Req_EM_T (filter (fun y => rltb y (f x)) (map f l)))).
  apply Permutation_length, NoDup_Permutation.
  - apply distinct_NoDup.
  - apply FinFun.Injective_map_NoDup; [intros a b E; congruence|apply NoDup_nodup].
  - intros y. rewrite distinct_In, filter_In, !in_map_iff. split.
    + intros ((a & <- & Ha) & L). exists (f a). split; [reflexivity|]. apply nodup_In, filter_In. split; [apply in_map_iff; eauto|exact L].
    + intros (v & <- & Hv). apply nodup_In, filter_In in Hv. destruct Hv as [Hv L]. apply in_map_iff in Hv. destruct Hv as (a & <- & Ha).
      split; [eauto|exact L].
Qed.
Lemma ranking_fv {A} (f : A -> R) (l : list A) :
  @get_ranking_vector XR (map (fun a => Fin (f a)) l) = Some (map (fun a => Fin (INR (rrank f l a))) l).
Proof.
  rewrite C25_ranking.
  - f_equal. rewrite map_map. apply map_ext. intros a. rewrite smaller_values_fin. now rewrite INR_IZR_INZ.
  - intros H. apply in_map_iff in H. destruct H as (a & E & _). discriminate.
Qed.
Lemma rrank_ext {A} (f g : A -> R) l : (forall x, In x l -> f x = g x) -> forall x, In x l -> rrank f l x = rrank g l x.
Proof. intros H x Hx. unfold rrank. rewrite (map_ext_in f g l H), (H x Hx). reflexivity. Qed.
Lemma rrank_set {A B} (f : A -> R) (l : list A) (g : B -> R) (m : list B) x y :
  (forall v, In v (map f l) <-> In v (map g m)) -> f x = g y -> rrank f l x = rrank g m y.
Proof.
  intros H E. unfold rrank. apply Permutation_length, NoDup_Permutation; try apply NoDup_nodup.
  intros v. rewrite !nodup_In, !filter_In, E, H. tauto.
Qed.
Lemma rrank_incr {A} (f g : A -> R) l : (forall x y, In x l -> In y l -> (f x < f y <-> g x < g y)) -> forall x, In x l -> rrank f l x = rrank g l x.
Proof.
  intros H x Hx.
  assert (Eq : forall a b, In a l -> In b l -> (f a = f b <-> g a = g b)).
  { intros a b Ha Hb. pose proof (H a b Ha Hb). pose proof (H b a Hb Ha). split; intros E.
    - destruct (Rtotal_order (g a) (g b)) as [L|[L|L]]; [|exact L|]; apply H in L; auto; lra.
    - destruct (Rtotal_order (f a) (f b)) as [L|[L|L]]; [|exact L|]; apply H in L; auto; lra. }
  assert (R1 : forall f g : A -> R, (forall x y, In x l -> In y l -> (f x < f y <-> g x < g y)) -> (forall a b, In a l -> In b l -> (f a = f b <-> g a = g b)) ->
    (rrank f l x <= rrank g l x)%nat).
  { clear f g H Eq. intros f g H Eq. unfold rrank.
    set (LF := nodup Req_EM_T (filter (fun y => rltb y (f x)) (map f l))). set (LG := nodup Req_EM_T (filter (fun y => rltb y (g x)) (map g l))).
    (* choose a preimage for each value *)
    assert (Pre : forall L, NoDup L -> (forall v, In v L -> In v LF) -> exists L', NoDup L' /\ length L' = length L /\ forall v', In v' L' -> exists a, In a l /\ v' = g a /\ In (f a) L).
    { induction L as [|v L IH]; intros ND HL; [exists []; repeat split; [constructor|intros v' []]|].
      inversion ND as [|? ? Hn ND']; subst. destruct IH as (L' & N' & E' & P'); [exact ND'|intros; apply HL; now right|].
      pose proof (HL v (or_introl eq_refl)) as Hv. apply nodup_In, filter_In in Hv. destruct Hv as [Hv _]. apply in_map_iff in Hv. destruct Hv as (a & <- & Ha).
      exists (g a :: L'). repeat split.
      - constructor; [|exact N']. intros Hin. destruct (P' _ Hin) as (a' & Ha' & Eg & Hf). apply Eq in Eg; auto. rewrite <- Eg in Hf. contradiction.
      - cbn. now rewrite E'.
      - intros v' [<-|Hv']; [exists a; repeat split; auto; now left|]. destruct (P' _ Hv') as (a' & ? & ? & ?). exists a'. repeat split; auto. now right. }
    destruct (Pre LF (NoDup_nodup _ _) (fun v Hv => Hv)) as (L' & N' & <- & P').
    apply NoDup_incl_length; [exact N'|]. intros v' Hv'. destruct (P' v' Hv') as (a & Ha & -> & Hf).
    apply nodup_In, filter_In in Hf. destruct Hf as [_ Hf]. apply nodup_In, filter_In. split; [now apply in_map|].
    apply rltb_true, (H a x Ha Hx). destruct (rltb_spec (f a) (f x)); [assumption|discriminate]. }
  apply Nat.le_antisymm; apply R1; auto; intros; symmetry; auto.
Qed.
Lemma rrank_scal {A} (f : A -> R) q l x : 0 < q -> In x l -> rrank (fun a => q * f a) l x = rrank f l x.
Proof.
  intros Hq Hx. apply rrank_incr; [|exact Hx]. intros a b _ _. split; intros L.
  - now apply Rmult_lt_reg_l with q.
  - now apply Rmult_lt_compat_l.
Qed.

Section Pack.
  Context {S V W : Type} {ES : Eqb S} {EV : Eqb V} {EW : Eqb W}.
  Notation data := (dataset S V W XR).
  Notation claim := (V * W)%type.
  Notation rscores := (@rscores S V W).

  (** parameters for which the exact recurrences are defined *)
  Definition params_ok (a : alg XR) : Prop :=
    match a with
    | Investment (Fin _) | PooledInvestment (Fin _) => True
    | TruthFinder (Fin _) (Fin _) (Fin t0) => t0 < 1
    | CRH (Fin eps) => 0 < eps
    | Sums | AverageLog | UnboundedSums => True
    | _ => False
    end.
  (** AverageLog needs a source with at least two claims *)
  Definition data_ok (ts : list (S * V * W)) (a : alg XR) : Prop :=
    match a with AverageLog => exists s, In s (sources ts) /\ (2 <= length (claims_of ts s))%nat | _ => True end.
  Definition step_of (f : option (V -> W -> W -> option R)) (ts : list (S * V * W)) (a : alg XR) : rscores -> rscores :=
    match a with
    | Sums => sums_step ts
    | AverageLog => avlog_step ts
    | Investment (Fin g) => inv_step ts g
    | PooledInvestment (Fin g) => pooled_step ts g
    | TruthFinder (Fin rho) (Fin gamma) _ => tf_step ts f rho gamma
    | CRH (Fin eps) => crh_step ts eps
    | UnboundedSums => usums_step ts
    | _ => fun x => x
    end.
  (** the trust scores compared in a round *)
  Definition compared (f : option (V -> W -> W -> option R)) (ts : list (S * V * W)) (a : alg XR) (x : rscores) : (S -> R) * (S -> R) :=
    match a with
    | Sums | CRH _ => (fst x, fst (step_of f ts a x))
    | UnboundedSums => (fst x, total_belief ts (snd x))
    | _ => (fst (step_of f ts a x), fst x)
    end.
  Definition good (ts : list (S * V * W)) (a : alg XR) (x : rscores) : Prop :=
    match a with
    | Sums => forall c, In c (claims ts) -> 0 < snd x c
    | AverageLog => avlog_inv ts x
    | Investment _ | PooledInvestment _ => all_pos ts x
    | TruthFinder _ _ _ => tf_inv ts x
    | _ => True
    end.

  Variables (b : bool) (f : option (V -> W -> W -> option R)) (ts : list (S * V * W)) (d : data).
  Hypothesis Hb : build b (real_imp f) ts = Ok d.
  Let R0 : ds_rep ts (real_imp f) d := build_rep _ _ _ _ Hb.
  Hypothesis NE : ts <> [].

  Lemma params_fin a : params_ok a -> match a with TruthFinder _ _ t0 => is_fin t0 | _ => True end.
  Proof. destruct a as [| |[] |[] |[] [] []|[]|]; cbn; try tauto. intros _. eexists. reflexivity. Qed.
  Lemma pack_start a p : params_ok a -> init a p d = option_map (denote ts) (start ts a p).
  Proof. intros H. apply (init_rep ts (real_imp f) d R0 NE). now apply params_fin. Qed.
  Lemma pack_start_good a p x0 : params_ok a -> start ts a p = Some x0 -> good ts a x0.
  Proof.
    intros Hp E. destruct a as [| |[] |[] |[] [] []|[]|]; cbn in Hp; try contradiction; cbn [good]; cbn in E; try exact I.
    - destruct (prior_spec ts p) as [bel|] eqn:Ep; [|discriminate]. injection E as <-. exact (prior_pos ts p bel Ep).
    - destruct (prior_spec ts p) as [bel|] eqn:Ep; [|discriminate]. injection E as <-. pose proof (prior_pos ts p bel Ep) as P. split.
      + intros c Hc. left. now apply P.
      + intros c (s & Hs & _). apply P. apply claims_In. eauto.
    - destruct (prior_spec ts p) as [bel|] eqn:Ep; [|discriminate]. injection E as <-. split; [intros; cbn; lra|exact (prior_pos ts p bel Ep)].
    - destruct (prior_spec ts p) as [bel|] eqn:Ep; [|discriminate]. injection E as <-. split; [intros; cbn; lra|exact (prior_pos ts p bel Ep)].
    - injection E as <-. intros s _. exact Hp.
  Qed.
  Lemma pack_round a x : params_ok a -> data_ok ts a -> good ts a x ->
    round a d (denote ts x) = UNext (tvec ts (fst (compared f ts a x))) (tvec ts (snd (compared f ts a x))) (denote ts (step_of f ts a x)) /\
    good ts a (step_of f ts a x).
  Proof.
    intros Hp Hd Hg. destruct a as [| |[] |[] |[] [] []|[]|]; cbn in Hp; try contradiction; cbn [good data_ok] in *; cbn [compared step_of].
    - destruct (sums_round ts (real_imp f) d R0 NE x Hg) as [E P]. split; [exact E|exact (proj2 P)].
    - destruct (avlog_round ts (real_imp f) d R0 NE x Hd Hg) as (E & P & _). split; [exact E|exact P].
    - exact (inv_round ts (real_imp f) d R0 NE _ x Hg).
    - exact (pooled_round ts (real_imp f) d R0 NE _ x Hg).
    - split; [exact (tf_round ts f d R0 _ _ _ x Hg)|]. intros s Hs. now apply (tf_step_range ts f _ _ x).
    - split; [exact (crh_round ts (real_imp f) d R0 NE _ x Hp)|exact I].
    - split; [exact (usums_round ts (real_imp f) d R0 NE x)|exact I].
  Qed.
  Lemma pack_scores a x0 : params_ok a -> data_ok ts a -> good ts a x0 -> forall k,
    scores a d (denote ts x0) k = denote ts (rounds (step_of f ts a) x0 k) /\ good ts a (rounds (step_of f ts a) x0 k).
  Proof.
    intros Hp Hd Hg k. induction k as [|k [E G]]; [split; [reflexivity|exact Hg]|]. cbn [scores rounds]. rewrite E.
    destruct (pack_round a _ Hp Hd G) as [-> G']. split; [reflexivity|exact G'].
  Qed.
  Lemma pack_cmp a x0 : params_ok a -> data_ok ts a -> good ts a x0 -> forall k,
    cmp1 a d (denote ts x0) k = tvec ts (fst (compared f ts a (rounds (step_of f ts a) x0 k))) /\
    cmp2 a d (denote ts x0) k = tvec ts (snd (compared f ts a (rounds (step_of f ts a) x0 k))) /\
    stops a d (denote ts x0) k = false.
  Proof.
    intros Hp Hd Hg k. destruct (pack_scores a x0 Hp Hd Hg k) as [E G]. unfold cmp1, cmp2, stops. rewrite E.
    destruct (pack_round a _ Hp Hd G) as [-> _]. auto.
  Qed.
End Pack.

(** Iterators only look at distances and rankings: if these agree, so do the loops. *)
Lemma it_loop_ext {F : Num} (a b a' b' : nat -> vec F) brk brk' fuel : forall it k,
  (forall it k, compare it (a k) (b k) = compare it (a' k) (b' k)) -> (forall k, brk k = brk' k) ->
  it_loop a b brk fuel it k = it_loop a' b' brk' fuel it k.
Proof.
  induction fuel as [|n IH]; intros it k Hc Hb; cbn [it_loop]; [reflexivity|].
  destruct (finished it) as [[|]|]; try reflexivity. rewrite Hb, Hc. destruct (brk' k); [reflexivity|].
  destruct (compare it (a' k) (b' k)) as [[[]|e] it']; [|reflexivity]. now apply IH.
Qed.
