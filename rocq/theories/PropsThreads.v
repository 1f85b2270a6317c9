(** C102: runs in several threads. *)
From Coq Require Import Reals.
From Verif Require Import Base Num Sparse Spec Dataset DatasetProofs DatasetRep Iterators Algorithms Driver Rounds PropsRun Threads.

Section Threads.
  Context {S V W : Type} {ES : Eqb S} {EV : Eqb V} {EW : Eqb W} {F : Num} {FOK : NumOK F}.
  Notation data := (dataset S V W F).
  Notation job := (job S V W F).
  Notation thread := (thread S V W F).
  Notation world := (world S V W F).
  Notation heap := (list (iterator F)).

  (** No two threads use a common iterator object. *)
  Definition separate (calls : list (list job)) : Prop :=
    forall i k js ks j l, nth_error calls i = Some js -> nth_error calls k = Some ks -> i <> k -> In j js -> In l ks -> j_it j <> j_it l.
  (** All references are valid and all datasets were constructed. *)
  Definition proper (calls : list (list job)) (h : heap) : Prop :=
    forall js j, In js calls -> In j js -> (j_it j < length h)%nat /\ real (j_data j).
  (** The outcome of a call made with nothing else going on: what [run] returns or raises, whatever the clock shows and whatever the
      algorithm object was used for before. *)
  Definition alone (h : heap) (j : job) (o : outcome S V W F) : Prop :=
    exists it, nth_error h (j_it j) = Some it /\ exists N, forall clock fuel lg, (N <= fuel)%nat ->
      untimed (fst (run clock fuel (AObj (j_alg j) (j_priors j) it lg) (j_data j))) = o.

  (** ** Lists *)
  Lemma nth_put {A} (l : list A) i x r : nth_error (put l i x) r = if (r =? i)%nat then match nth_error l i with Some _ => Some x | None => None end else nth_error l r.
  Proof. revert i r. induction l as [|y l IH]; intros [|i] [|r]; cbn [put nth_error Nat.eqb]; auto. destruct (r =? i)%nat; reflexivity. Qed.
  Lemma put_length {A} (l : list A) i x : length (put l i x) = length l.
  Proof. revert i. induction l as [|y l IH]; intros [|i]; cbn; auto. Qed.

  (** ** A step touches only the iterators of the thread *)
  Lemma jstep_jobs (t : thread) j js it : t_jobs (fst (jstep t j js it)) = j :: js \/ t_jobs (fst (jstep t j js it)) = js.
  Proof.
    unfold jstep. destruct (t_place t) as [|x|x|u v x|x].
    - destruct (Nat.eqb _ _); [now right|]. destruct (init _ _ _); [now left|now right].
    - destruct (finished it) as [[|]|]; [now left|now left|now right].
    - destruct (round _ _ _); [now left|now right|now left].
    - destruct (judge it u v) as [[|] ?]; [now left|now right].
    - destruct (final _ _ _) as [[? ?]|]; [|now right]. destruct (get_source_trust_dict _ _); [|now right]. destruct (get_belief_dict _ _); now right.
  Qed.
  Lemma tstep_jobs (t : thread) (h : heap) : incl (t_jobs (fst (tstep t h))) (t_jobs t).
  Proof.
    unfold tstep. destruct (t_jobs t) as [|j js] eqn:E; [cbn [fst]; rewrite E; apply incl_refl|]. destruct (nth_error h (j_it j)) as [it|]; [|cbn [fst]; rewrite E; apply incl_refl].
    pose proof (jstep_jobs t j js it) as Q. destruct (jstep t j js it) as [t' it']. cbn [fst] in *. destruct Q as [->| ->]; [apply incl_refl|apply incl_tl, incl_refl].
  Qed.
  Lemma tstep_local (t : thread) (h h' : heap) : (forall j, In j (t_jobs t) -> nth_error h (j_it j) = nth_error h' (j_it j)) ->
    fst (tstep t h) = fst (tstep t h') /\ forall r, nth_error h r = nth_error h' r -> nth_error (snd (tstep t h)) r = nth_error (snd (tstep t h')) r.
  Proof.
    intros H. unfold tstep. destruct (t_jobs t) as [|j js]; [split; auto|]. pose proof (H j (or_introl eq_refl)) as Ej. rewrite <- Ej. destruct (nth_error h (j_it j)) as [it|] eqn:Eh; [|split; auto].
    destruct (jstep t j js it) as [t' it']. cbn [fst snd]. split; [reflexivity|]. intros r Hr. rewrite !nth_put. rewrite <- Ej, Eh, Hr. reflexivity.
  Qed.
  Lemma tstep_frame (t : thread) (h : heap) r : (forall j, In j (t_jobs t) -> j_it j <> r) -> nth_error (snd (tstep t h)) r = nth_error h r.
  Proof.
    intros H. unfold tstep. destruct (t_jobs t) as [|j js]; [reflexivity|]. destruct (nth_error h (j_it j)) as [it|]; [|reflexivity]. destruct (jstep t j js it) as [t' it'].
    cbn [snd]. rewrite nth_put. destruct (r =? j_it j)%nat eqn:Er; [|reflexivity]. apply Nat.eqb_eq in Er. exfalso. now apply (H j (or_introl eq_refl)).
  Qed.
  (** the threads are making (the rest of) these calls *)
  Definition within (calls : list (list job)) (w : world) : Prop :=
    forall i, match nth_error (fst w) i with Some t => exists js, nth_error calls i = Some js /\ incl (t_jobs t) js | None => True end.
  Lemma within_step calls w i : within calls w -> within calls (wstep w i).
  Proof.
    intros H r. unfold wstep. pose proof (H i) as Hi. destruct (nth_error (fst w) i) as [t|] eqn:Ei; [|apply H]. pose proof (tstep_jobs t (snd w)) as Q. destruct (tstep t (snd w)) as [t' h']. cbn [fst] in *.
    rewrite nth_put, Ei. destruct (r =? i)%nat eqn:Er; [|apply H]. apply Nat.eqb_eq in Er. subst r. destruct Hi as (js & E & I). exists js. split; [exact E|]. now apply (incl_tran Q).
  Qed.
  Lemma within_start calls h : within calls (starting calls h).
  Proof.
    intros i. unfold starting. cbn [fst]. destruct (nth_error (map (fun js => Thread js AtStart []) calls) i) as [t|] eqn:E; [|exact Logic.I].
    rewrite nth_error_map in E. destruct (nth_error calls i) as [js|]; [|discriminate]. injection E as <-. exists js. split; [reflexivity|apply incl_refl].
  Qed.

  (** ** What a thread has done depends only on how many steps it has made *)
  Definition same_for (i : nat) (js : list job) (w w' : world) : Prop :=
    nth_error (fst w) i = nth_error (fst w') i /\ forall j, In j js -> nth_error (snd w) (j_it j) = nth_error (snd w') (j_it j).
  Lemma same_own calls i js w w' : nth_error calls i = Some js -> within calls w -> same_for i js w w' -> same_for i js (wstep w i) (wstep w' i).
  Proof.
    intros Ec Wi (E & H). unfold wstep. rewrite <- E. pose proof (Wi i) as Q. destruct (nth_error (fst w) i) as [t|] eqn:Et; [|split; [congruence|assumption]].
    destruct Q as (js' & Ej & In'). assert (js' = js) by congruence. subst js'. destruct (tstep_local t (snd w) (snd w') (fun j Hj => H j (In' j Hj))) as (A & B).
    destruct (tstep t (snd w)) as [t1 h1], (tstep t (snd w')) as [t2 h2]. cbn [fst snd] in *. subst t2. split; cbn [fst snd].
    - rewrite !nth_put, <- E, Et, Nat.eqb_refl. reflexivity.
    - intros j Hj. now apply B, H.
  Qed.
  Lemma same_other calls i k js w w' : separate calls -> nth_error calls i = Some js -> within calls w -> i <> k -> same_for i js w w' -> same_for i js (wstep w k) w'.
  Proof.
    intros Sep Ec Wi Hik (E & H). unfold wstep. pose proof (Wi k) as Q. destruct (nth_error (fst w) k) as [t|] eqn:Et; [|split; assumption]. destruct Q as (ks & Ek & In').
    pose proof (tstep_frame t (snd w)) as Fr. destruct (tstep t (snd w)) as [t' h']. cbn [snd] in Fr. split; cbn [fst snd].
    - rewrite nth_put. destruct (i =? k)%nat eqn:Eik; [apply Nat.eqb_eq in Eik; congruence|exact E].
    - intros j Hj. rewrite Fr; [now apply H|]. intros l Hl. apply not_eq_sym. apply (Sep i k js ks j l Ec Ek Hik Hj). now apply In'.
  Qed.
  Lemma own_steps calls i js : separate calls -> nth_error calls i = Some js -> forall schedule w w', within calls w -> within calls w' -> same_for i js w w' ->
    same_for i js (wrun w schedule) (wrun w' (repeat i (count_occ Nat.eq_dec schedule i))).
  Proof.
    intros Sep Ec. induction schedule as [|k sch IH]; intros w w' Wi Wi' H; [exact H|]. cbn [count_occ]. destruct (Nat.eq_dec k i) as [->|Hk].
    - cbn [repeat]. apply (IH (wstep w i) (wstep w' i)); try now apply within_step. exact (same_own calls i js w w' Ec Wi H).
    - apply (IH (wstep w k) w'); [now apply within_step|assumption|]. exact (same_other calls i k js w w' Sep Ec Wi (not_eq_sym Hk) H).
  Qed.
  Theorem C102_own_steps calls h i schedule : separate calls ->
    outcomes (wrun (starting calls h) schedule) i = outcomes (wrun (starting calls h) (repeat i (count_occ Nat.eq_dec schedule i))) i.
  Proof.
    intros Sep. destruct (nth_error calls i) as [js|] eqn:Ec.
    - destruct (own_steps calls i js Sep Ec schedule (starting calls h) (starting calls h) (within_start calls h) (within_start calls h)) as (E & _); [now split|].
      unfold outcomes. now rewrite E.
    - assert (No : forall sch w, within calls w -> outcomes (wrun w sch) i = []).
      { clear schedule. induction sch as [|k sch IH]; intros w Wi; [|apply (IH (wstep w k)); now apply within_step].
        cbn [wrun fold_left]. unfold outcomes. pose proof (Wi i) as Q. destruct (nth_error (fst w) i); [|reflexivity]. destruct Q as (? & ? & _). congruence. }
      rewrite !No by apply within_start. reflexivity.
  Qed.

  (** ** One thread by itself *)
  Fixpoint solo (n : nat) (t : thread) (h : heap) : thread * heap :=
    match n with O => (t, h) | Datatypes.S n => let (t1, h1) := tstep t h in solo n t1 h1 end.
  Lemma solo_add n m t h : solo (n + m) t h = let (t1, h1) := solo n t h in solo m t1 h1.
  Proof. revert t h. induction n as [|n IH]; intros t h; [reflexivity|]. cbn [Nat.add solo]. destruct (tstep t h) as [t1 h1]. apply IH. Qed.
  Lemma solo_wrun n : forall (w : world) i t, nth_error (fst w) i = Some t ->
    nth_error (fst (wrun w (repeat i n))) i = Some (fst (solo n t (snd w))) /\ snd (wrun w (repeat i n)) = snd (solo n t (snd w)).
  Proof.
    induction n as [|n IH]; intros w i t E; [split; [exact E|reflexivity]|]. cbn [repeat solo]. change (wrun w (i :: repeat i n)) with (wrun (wstep w i) (repeat i n)).
    assert (Q : wstep w i = (put (fst w) i (fst (tstep t (snd w))), snd (tstep t (snd w)))) by (unfold wstep; rewrite E; destruct (tstep t (snd w)); reflexivity). rewrite Q.
    destruct (tstep t (snd w)) as [t1 h1]. cbn [fst snd]. apply (IH (put (fst w) i t1, h1)). cbn [fst]. now rewrite nth_put, Nat.eqb_refl, E.
  Qed.

  (** ** Iterators keep their configuration *)
  Lemma reset_bump (it : iterator F) : reset (bump it) = reset it. Proof. now destruct it. Qed.
  Lemma reset_reset (it : iterator F) : reset (reset it) = reset it. Proof. now destruct it. Qed.
  Lemma reset_judge (it : iterator F) u v : reset (snd (judge it u v)) = reset it.
  Proof. destruct it; cbn [judge]; [reflexivity| |]. - destruct (get_distance m u v); reflexivity. - destruct (get_ranking_vector u), (get_ranking_vector v); reflexivity. Qed.
  Lemma compare_split (it : iterator F) u v : compare it u v = judge (bump it) u v.
  Proof. destruct it; cbn [judge bump compare]; [reflexivity| |]. - destruct (get_distance m u v); reflexivity. - destruct (get_ranking_vector u), (get_ranking_vector v); reflexivity. Qed.
  Lemma jstep_reset (t : thread) j js it : reset (snd (jstep t j js it)) = reset it.
  Proof.
    unfold jstep. destruct (t_place t) as [|x|x|u v x|x].
    - destruct (Nat.eqb _ _); [reflexivity|]. destruct (init _ _ _); apply reset_reset.
    - destruct (finished it) as [[|]|]; reflexivity.
    - destruct (round _ _ _); try reflexivity. apply reset_bump.
    - pose proof (reset_judge it u v) as Q. destruct (judge it u v) as [[|] ?]; exact Q.
    - destruct (final _ _ _) as [[? ?]|]; [|reflexivity]. destruct (get_source_trust_dict _ _); [|reflexivity]. destruct (get_belief_dict _ _); reflexivity.
  Qed.
  Definition same_config (h h' : heap) : Prop := forall r, option_map reset (nth_error h r) = option_map reset (nth_error h' r).
  Lemma tstep_config (t : thread) (h : heap) : same_config (snd (tstep t h)) h.
  Proof.
    intros r. unfold tstep. destruct (t_jobs t) as [|j js]; [reflexivity|]. destruct (nth_error h (j_it j)) as [it|] eqn:E; [|reflexivity]. pose proof (jstep_reset t j js it) as Q.
    destruct (jstep t j js it) as [t' it']. cbn [snd] in *. rewrite nth_put, E. destruct (r =? j_it j)%nat eqn:Er; [|reflexivity]. apply Nat.eqb_eq in Er. subst r. rewrite E. cbn. now rewrite Q.
  Qed.

  (** ** A call in terms of rounds *)
  Definition finish (j : job) (it : iterator F) (x : vec F * vec F) : outcome S V W F :=
    match final (j_alg j) it x with
    | Err e => Err e
    | Ok (trust, belief) => match get_source_trust_dict (j_data j) trust, get_belief_dict (j_data j) belief with
                            | Some tr, Some be => Ok (tr, be, Some (it_count it)) | _, _ => Err KeyErr end
    end.
  Notation loop j x0 := (it_loop (cmp1 (j_alg j) (j_data j) x0) (cmp2 (j_alg j) (j_data j) x0) (stops (j_alg j) (j_data j) x0)).
  Notation at_round j x0 k := (scores (j_alg j) (j_data j) x0 k).
  Lemma nonempty (d : data) b f ts : build b f ts = Ok d -> num_claims d <> 0%nat -> ts <> [].
  Proof. intros E H ->. apply H. rewrite (rep_nc _ _ _ (build_rep _ _ _ _ E)). reflexivity. Qed.
  Lemma run_rounds clock fuel (j : job) it lg : real (j_data j) -> num_claims (j_data j) <> 0%nat ->
    untimed (fst (run clock fuel (AObj (j_alg j) (j_priors j) it lg) (j_data j))) =
    match init (j_alg j) (j_priors j) (j_data j) with
    | None => Err InvalidPriorError
    | Some x0 => let '((r, k), it') := loop j x0 fuel (reset it) 0 in match r with Ok _ => finish j it' (at_round j x0 k) | Err e => Err e end
    end.
  Proof.
    intros (b & f & ts & E) H. unfold run. apply Nat.eqb_neq in H as H0. rewrite H0. cbn [o_alg o_priors o_it].
    rewrite (alg_run_char clock ts f (j_data j) (build_rep _ _ _ _ E) (nonempty _ _ _ _ E H)); [|now destruct it|now left].
    destruct (init _ _ _) as [x0|]; [|reflexivity]. destruct (loop j x0 fuel (reset it) 0) as [[r k] it']. destruct r as [u|e]; [|reflexivity]. unfold finish. cbn [st_it].
    destruct (final _ _ _) as [[tr be]|e]; [|reflexivity]. destruct (get_source_trust_dict _ _); [|reflexivity]. destruct (get_belief_dict _ _); reflexivity.
  Qed.
  Lemma round_next (j : job) x0 k : real (j_data j) -> num_claims (j_data j) <> 0%nat -> init (j_alg j) (j_priors j) (j_data j) = Some x0 ->
    round (j_alg j) (j_data j) (at_round j x0 k) =
    if stops (j_alg j) (j_data j) x0 k then UBreak (F:=F) else UNext (F:=F) (cmp1 (j_alg j) (j_data j) x0 k) (cmp2 (j_alg j) (j_data j) x0 k) (at_round j x0 (Datatypes.S k)).
  Proof.
    intros (b & f & ts & E) H E0. pose proof (build_rep _ _ _ _ E) as R. pose proof (nonempty _ _ _ _ E H) as NE.
    pose proof (round_shaped ts f (j_data j) R NE (j_alg j) _ (scores_shaped (fun _ => n_ofZ 0) ts f (j_data j) R NE (j_alg j) x0 k (init_shaped ts f (j_data j) R _ _ _ E0))) as Q.
    unfold stops, cmp1, cmp2. cbn [scores]. destruct (round _ _ _); [reflexivity|contradiction|reflexivity].
  Qed.

  (** ** The outcomes are those of the calls made alone *)
  Definition so_far (j : job) (h0 h : heap) (p : place) : Prop :=
    num_claims (j_data j) <> 0%nat /\
    exists x0 k it it0, init (j_alg j) (j_priors j) (j_data j) = Some x0 /\ nth_error h (j_it j) = Some it /\ nth_error h0 (j_it j) = Some it0 /\
      match p with
      | AtStart => True
      | AtTest x => x = at_round j x0 k /\ forall fuel, loop j x0 (k + fuel) (reset it0) 0 = loop j x0 fuel it k
      | AtRound x => x = at_round j x0 k /\ finished it = Ok false /\ forall fuel, loop j x0 (k + fuel) (reset it0) 0 = loop j x0 fuel it k
      | AtCompare u v y => exists it1, it = bump it1 /\ stops (j_alg j) (j_data j) x0 k = false /\ u = cmp1 (j_alg j) (j_data j) x0 k /\ v = cmp2 (j_alg j) (j_data j) x0 k /\
          y = at_round j x0 (Datatypes.S k) /\ finished it1 = Ok false /\ forall fuel, loop j x0 (k + fuel) (reset it0) 0 = loop j x0 fuel it1 k
      | AtEnd x => x = at_round j x0 k /\ exists N, forall fuel, (N <= fuel)%nat -> loop j x0 fuel (reset it0) 0 = ((Ok tt, k), it)
      end.
  Definition good (js0 : list job) (h0 : heap) (t : thread) (h : heap) : Prop :=
    same_config h h0 /\ (exists d, js0 = d ++ t_jobs t /\ Forall2 (alone h0) d (t_done t)) /\
    (t_place t <> AtStart -> match t_jobs t with [] => False | j :: _ => so_far j h0 h (t_place t) end).
  Lemma good_end js0 h0 h h' (t : thread) j js o : good js0 h0 t h -> t_jobs t = j :: js -> same_config h' h -> alone h0 j o -> good js0 h0 (Thread js AtStart (t_done t ++ [o])) h'.
  Proof.
    intros (C & (d & Ed & Fd) & _) Ej C' A. split; [intros r; now rewrite (C' r)|]. split; [|cbn; congruence].
    exists (d ++ [j]). rewrite Ed, Ej, <- app_assoc. split; [reflexivity|]. cbn [t_done]. apply Forall2_app; [exact Fd|]. constructor; [exact A|constructor].
  Qed.
  Lemma good_on js0 h0 h h' (t : thread) j js p : good js0 h0 t h -> t_jobs t = j :: js -> same_config h' h -> so_far j h0 h' p -> good js0 h0 (Thread (j :: js) p (t_done t)) h'.
  Proof.
    intros (C & (d & Ed & Fd) & _) Ej C' A. split; [intros r; now rewrite (C' r)|]. split; [|intros _; exact A].
    exists d. cbn [t_jobs t_done]. rewrite <- Ej. now split.
  Qed.
  Lemma put_config h i it it' : nth_error h i = Some it -> reset it' = reset it -> same_config (put h i it') h.
  Proof. intros E R r. rewrite nth_put, E. destruct (r =? i)%nat eqn:Er; [|reflexivity]. apply Nat.eqb_eq in Er. subst r. rewrite E. cbn. now rewrite R. Qed.
  Lemma config_at h h0 i it : same_config h h0 -> nth_error h i = Some it -> exists it0, nth_error h0 i = Some it0 /\ reset it0 = reset it.
  Proof. intros C E. pose proof (C i) as Q. rewrite E in Q. destruct (nth_error h0 i) as [it0|]; [|discriminate]. injection Q as Q. now exists it0. Qed.
  Lemma alone_after (j : job) h0 it0 x0 r k it' N : real (j_data j) -> num_claims (j_data j) <> 0%nat -> init (j_alg j) (j_priors j) (j_data j) = Some x0 -> nth_error h0 (j_it j) = Some it0 ->
    (forall fuel, (N <= fuel)%nat -> loop j x0 fuel (reset it0) 0 = ((r, k), it')) -> alone h0 j (match r with Ok _ => finish j it' (at_round j x0 k) | Err e => Err e end).
  Proof.
    intros R H E0 E H1. exists it0. split; [exact E|]. exists N. intros clock fuel lg Hf. rewrite run_rounds by assumption. rewrite E0, (H1 fuel Hf). reflexivity.
  Qed.
  Lemma good_step js0 h0 (t : thread) (h : heap) : (forall j, In j js0 -> real (j_data j)) -> good js0 h0 t h -> good js0 h0 (fst (tstep t h)) (snd (tstep t h)).
  Proof.
    intros Real G. unfold tstep. destruct (t_jobs t) as [|j js] eqn:Ej; [exact G|]. destruct (nth_error h (j_it j)) as [it|] eqn:Eh; [|exact G].
    assert (Rj : real (j_data j)) by (destruct G as (_ & (d & -> & _) & _); apply Real; apply in_or_app; right; rewrite Ej; now left).
    destruct G as (C & D & P) eqn:EG. pose proof (config_at h h0 _ it C Eh) as (it0 & E0 & R0). assert (G' : good js0 h0 t h) by exact G. clear EG G. rename G' into G.
    assert (Cp : forall it', reset it' = reset it -> same_config (put h (j_it j) it') h) by (intros it'; now apply put_config).
    assert (At : forall it', nth_error (put h (j_it j) it') (j_it j) = Some it') by (intros it'; now rewrite nth_put, Nat.eqb_refl, Eh).
    unfold jstep. destruct (t_place t) as [|x|x|u v y|x] eqn:Ep.
    - destruct (Nat.eqb (num_claims (j_data j)) 0) eqn:En; cbn [fst snd].
      { apply (good_end js0 h0 h _ t j); auto. exists it0. split; [exact E0|]. exists 0. intros clock fuel lg _. unfold run. rewrite En. reflexivity. }
      apply Nat.eqb_neq in En. destruct (init (j_alg j) (j_priors j) (j_data j)) as [x0|] eqn:Ei; cbn [fst snd].
      + apply (good_on js0 h0 h _ t j); auto using reset_reset. split; [exact En|]. exists x0, 0, (reset it), it0. rewrite At. repeat split; auto. now rewrite R0.
      + apply (good_end js0 h0 h _ t j); auto using reset_reset. exists it0. split; [exact E0|]. exists 0. intros clock fuel lg _. rewrite run_rounds by assumption. now rewrite Ei.
    - specialize (P ltac:(discriminate)). rewrite Ej in P. destruct P as (Nc & x0 & k & it1 & it2 & Ei & E1 & E2 & -> & H). assert (it1 = it) by congruence. assert (it2 = it0) by congruence. subst it1 it2.
      destruct (finished it) as [[|]|e] eqn:Ef; cbn [fst snd].
      + apply (good_on js0 h0 h _ t j); auto. split; [exact Nc|]. exists x0, k, it, it0. rewrite At. repeat split; auto. exists (k + 1). intros fuel Hf.
        replace fuel with (k + Datatypes.S (fuel - k - 1)) by lia. rewrite H. cbn [it_loop]. now rewrite Ef.
      + apply (good_on js0 h0 h _ t j); auto. split; [exact Nc|]. exists x0, k, it, it0. rewrite At. repeat split; auto.
      + apply (good_end js0 h0 h _ t j); auto. apply (alone_after j h0 it0 x0 (Err e) k it (k + 1)); auto. intros fuel Hf.
        replace fuel with (k + Datatypes.S (fuel - k - 1)) by lia. rewrite H. cbn [it_loop]. now rewrite Ef.
    - specialize (P ltac:(discriminate)). rewrite Ej in P. destruct P as (Nc & x0 & k & it1 & it2 & Ei & E1 & E2 & -> & Ef & H). assert (it1 = it) by congruence. assert (it2 = it0) by congruence. subst it1 it2.
      rewrite (round_next j x0 k Rj Nc Ei). destruct (stops (j_alg j) (j_data j) x0 k) eqn:Es; cbn [fst snd].
      + apply (good_on js0 h0 h _ t j); auto. split; [exact Nc|]. exists x0, k, it, it0. rewrite At. repeat split; auto. exists (k + 1). intros fuel Hf.
        replace fuel with (k + Datatypes.S (fuel - k - 1)) by lia. rewrite H. cbn [it_loop]. now rewrite Ef, Es.
      + apply (good_on js0 h0 h _ t j); auto using reset_bump. split; [exact Nc|]. exists x0, k, (bump it), it0. rewrite At. repeat split; auto. exists it. repeat split; auto.
    - specialize (P ltac:(discriminate)). rewrite Ej in P. destruct P as (Nc & x0 & k & it1 & it2 & Ei & E1 & E2 & it3 & -> & Es & -> & -> & -> & Ef & H). assert (bump it3 = it) by congruence. assert (it2 = it0) by congruence. subst it it2.
      pose proof (compare_split it3 (cmp1 (j_alg j) (j_data j) x0 k) (cmp2 (j_alg j) (j_data j) x0 k)) as Sp. pose proof (reset_judge (bump it3) (cmp1 (j_alg j) (j_data j) x0 k) (cmp2 (j_alg j) (j_data j) x0 k)) as Rs.
      destruct (judge (bump it3) _ _) as [[u|e] it4]; cbn [fst snd] in *.
      + apply (good_on js0 h0 h _ t j); auto. split; [exact Nc|]. exists x0, (Datatypes.S k), it4, it0. rewrite At. repeat split; auto. intros fuel.
        replace (Datatypes.S k + fuel) with (k + Datatypes.S fuel) by lia. rewrite H. cbn [it_loop]. rewrite Ef, Es, Sp. now destruct u.
      + apply (good_end js0 h0 h _ t j); auto. apply (alone_after j h0 it0 x0 (Err e) k it4 (k + 1)); auto. intros fuel Hf.
        replace fuel with (k + Datatypes.S (fuel - k - 1)) by lia. rewrite H. cbn [it_loop]. now rewrite Ef, Es, Sp.
    - specialize (P ltac:(discriminate)). rewrite Ej in P. destruct P as (Nc & x0 & k & it1 & it2 & Ei & E1 & E2 & -> & N & H). assert (it1 = it) by congruence. assert (it2 = it0) by congruence. subst it1 it2.
      pose proof (alone_after j h0 it0 x0 (Ok tt) k it N Rj Nc Ei E0 H) as A. cbn beta iota in A. unfold finish in A.
      destruct (final (j_alg j) it (at_round j x0 k)) as [[tr be]|e]; cbn [fst snd]; [|apply (good_end js0 h0 h _ t j); auto].
      destruct (get_source_trust_dict (j_data j) tr); [|cbn [fst snd]; apply (good_end js0 h0 h _ t j); auto]. destruct (get_belief_dict (j_data j) be); cbn [fst snd]; apply (good_end js0 h0 h _ t j); auto.
  Qed.
  Lemma good_solo js0 h0 n : (forall j, In j js0 -> real (j_data j)) -> forall t h, good js0 h0 t h -> good js0 h0 (fst (solo n t h)) (snd (solo n t h)).
  Proof.
    intros Real. induction n as [|n IH]; intros t h G; [exact G|]. cbn [solo]. pose proof (good_step js0 h0 t h Real G) as Q. destruct (tstep t h) as [t1 h1]. now apply IH.
  Qed.
  Lemma good_start js h : good js h (Thread js AtStart []) h.
  Proof. split; [intros r; reflexivity|]. split; [exists []; split; [reflexivity|constructor]|cbn; congruence]. Qed.

  (** Whatever the threads do in between, the outcomes of a thread whose iterator objects no other thread uses are those its calls would have had
      with nothing else going on. *)
  Theorem C102_as_if_alone calls h schedule i js : separate calls -> proper calls h -> nth_error calls i = Some js ->
    exists rest, js = firstn (length js - length rest) js ++ rest /\
      Forall2 (alone h) (firstn (length js - length rest) js) (outcomes (wrun (starting calls h) schedule) i).
  Proof.
    intros Sep Pr E. rewrite (C102_own_steps calls h i schedule Sep). set (n := count_occ Nat.eq_dec schedule i).
    assert (Et : nth_error (fst (starting calls h)) i = Some (Thread js AtStart [])) by (cbn [starting fst]; rewrite nth_error_map, E; reflexivity).
    destruct (solo_wrun n _ i _ Et) as (Q & _). unfold outcomes. rewrite Q. cbn [starting snd].
    destruct (good_solo js h n (fun j Hj => proj2 (Pr js j (nth_error_In _ _ E) Hj)) _ _ (good_start js h)) as (_ & (d & Ed & Fd) & _).
    exists (t_jobs (fst (solo n (Thread js AtStart []) h))). set (rest := t_jobs (fst (solo n (Thread js AtStart []) h))) in *.
    assert (Ef : firstn (length js - length rest) js = d) by (rewrite Ed, app_length, Nat.add_sub, firstn_app, firstn_all, Nat.sub_diag, firstn_O, app_nil_r; reflexivity).
    rewrite Ef. split; [exact Ed|exact Fd].
  Qed.

  (** ** A thread that gets enough steps finishes *)
  Lemma solo_done n (t : thread) h : t_jobs t = [] -> solo n t h = (t, h).
  Proof. intros E. induction n as [|n IH]; [reflexivity|]. cbn [solo]. unfold tstep. rewrite E. exact IH. Qed.
  Lemma end_step (t : thread) (h : heap) j js x it : t_jobs t = j :: js -> t_place t = AtEnd x -> nth_error h (j_it j) = Some it ->
    exists o h', solo 1 t h = (Thread js AtStart (t_done t ++ [o]), h') /\ same_config h' h.
  Proof.
    intros Ej Ep Eh. cbn [solo]. pose proof (tstep_config t h) as C. unfold tstep in *. rewrite Ej, Eh in *. unfold jstep in *. rewrite Ep in *.
    destruct (final (j_alg j) it x) as [[tr be]|e]; [|eexists _, _; split; [reflexivity|exact C]].
    destruct (get_source_trust_dict (j_data j) tr); [|eexists _, _; split; [reflexivity|exact C]]. destruct (get_belief_dict (j_data j) be); (eexists _, _; split; [reflexivity|exact C]).
  Qed.
  Lemma config_trans h1 h2 h3 : same_config h1 h2 -> same_config h2 h3 -> same_config h1 h3.
  Proof. intros A B r. now rewrite (A r). Qed.
  Lemma loop_steps (j : job) js x0 : real (j_data j) -> num_claims (j_data j) <> 0%nat -> init (j_alg j) (j_priors j) (j_data j) = Some x0 ->
    forall fuel it k dn h, nth_error h (j_it j) = Some it -> fst (fst (loop j x0 fuel it k)) <> Err OutOfFuel ->
    exists n o h', solo n (Thread (j :: js) (AtTest (at_round j x0 k)) dn) h = (Thread js AtStart (dn ++ [o]), h') /\ same_config h' h.
  Proof.
    intros R Nc Ei. induction fuel as [|fuel IH]; intros it k dn h Eh H; [exfalso; apply H; reflexivity|]. cbn [it_loop] in H.
    set (t := Thread (j :: js) (AtTest (at_round j x0 k)) dn). assert (Cp : forall it', reset it' = reset it -> same_config (put h (j_it j) it') h) by (intros it'; now apply put_config).
    assert (At : forall it', nth_error (put h (j_it j) it') (j_it j) = Some it') by (intros it'; now rewrite nth_put, Nat.eqb_refl, Eh).
    assert (T1 : tstep t h = match finished it with Err e => (Thread js AtStart (dn ++ [Err e]), put h (j_it j) it) | Ok true => (Thread (j :: js) (AtEnd (at_round j x0 k)) dn, put h (j_it j) it)
                          | Ok false => (Thread (j :: js) (AtRound (at_round j x0 k)) dn, put h (j_it j) it) end).
    { unfold tstep, t. cbn [t_jobs]. rewrite Eh. unfold jstep. cbn [t_place t_done]. destruct (finished it) as [[|]|]; reflexivity. }
    destruct (finished it) as [[|]|e] eqn:Ef.
    - destruct (end_step (Thread (j :: js) (AtEnd (at_round j x0 k)) dn) (put h (j_it j) it) j js _ it eq_refl eq_refl (At it)) as (o & h' & Eo & Co). exists 2, o, h'. split; [|exact (config_trans _ _ _ Co (Cp it eq_refl))].
      cbn [solo] in *. rewrite T1. exact Eo.
    - assert (T2 : tstep (Thread (j :: js) (AtRound (at_round j x0 k)) dn) (put h (j_it j) it) =
        if stops (j_alg j) (j_data j) x0 k then (Thread (j :: js) (AtEnd (at_round j x0 k)) dn, put (put h (j_it j) it) (j_it j) it)
        else (Thread (j :: js) (AtCompare (cmp1 (j_alg j) (j_data j) x0 k) (cmp2 (j_alg j) (j_data j) x0 k) (at_round j x0 (Datatypes.S k))) dn, put (put h (j_it j) it) (j_it j) (bump it))).
      { unfold tstep. cbn [t_jobs]. rewrite At. unfold jstep. cbn [t_place t_done]. rewrite (round_next j x0 k R Nc Ei). destruct (stops _ _ _ _); reflexivity. }
      assert (At2 : forall it', nth_error (put (put h (j_it j) it) (j_it j) it') (j_it j) = Some it') by (intros it'; now rewrite nth_put, Nat.eqb_refl, At).
      assert (Cp2 : forall it', reset it' = reset it -> same_config (put (put h (j_it j) it) (j_it j) it') h) by (intros it' Hr; apply (config_trans _ (put h (j_it j) it)); [now apply (put_config _ _ it)|now apply Cp]).
      destruct (stops (j_alg j) (j_data j) x0 k) eqn:Es.
      + destruct (end_step (Thread (j :: js) (AtEnd (at_round j x0 k)) dn) (put (put h (j_it j) it) (j_it j) it) j js _ it eq_refl eq_refl (At2 it)) as (o & h' & Eo & Co). exists 3, o, h'. split; [|exact (config_trans _ _ _ Co (Cp2 it eq_refl))].
        cbn [solo] in *. rewrite T1; cbv beta iota; rewrite T2; exact Eo.
      + rewrite compare_split in H. pose proof (reset_judge (bump it) (cmp1 (j_alg j) (j_data j) x0 k) (cmp2 (j_alg j) (j_data j) x0 k)) as Rs. rewrite reset_bump in Rs.
        set (h2 := put (put h (j_it j) it) (j_it j) (bump it)) in *.
        set (t2 := Thread (j :: js) (AtCompare (cmp1 (j_alg j) (j_data j) x0 k) (cmp2 (j_alg j) (j_data j) x0 k) (at_round j x0 (Datatypes.S k))) dn) in *.
        assert (T3 : tstep t2 h2 = match judge (bump it) (cmp1 (j_alg j) (j_data j) x0 k) (cmp2 (j_alg j) (j_data j) x0 k) with
          | (Err e, it') => (Thread js AtStart (dn ++ [Err e]), put h2 (j_it j) it') | (Ok _, it') => (Thread (j :: js) (AtTest (at_round j x0 (Datatypes.S k))) dn, put h2 (j_it j) it') end).
        { unfold tstep, t2. cbn [t_jobs]. unfold h2 at 1. rewrite At2. unfold jstep. cbn [t_place t_done]. destruct (judge _ _ _) as [[|] ?]; reflexivity. }
        assert (C3 : forall it', reset it' = reset it -> same_config (put h2 (j_it j) it') h) by (intros it' Hr; apply (config_trans _ h2); [apply (put_config _ _ (bump it)); [apply At2|now rewrite reset_bump]|apply Cp2, reset_bump]).
        assert (S3 : forall n, solo (Datatypes.S (Datatypes.S (Datatypes.S n))) t h = let (t4, h4) := tstep t2 h2 in solo n t4 h4) by (intros n; cbn [solo]; rewrite T1; cbv beta iota; rewrite T2; reflexivity).
        destruct (judge (bump it) _ _) as [[u|e] it'] eqn:Ejd; cbn [snd] in Rs.
        * destruct u. destruct (IH it' (Datatypes.S k) dn (put h2 (j_it j) it')) as (n & o & h' & Eo & Co); [now rewrite nth_put, Nat.eqb_refl; unfold h2; rewrite At2|exact H|].
          exists (Datatypes.S (Datatypes.S (Datatypes.S n))), o, h'. rewrite S3, T3. split; [exact Eo|]. exact (config_trans _ _ _ Co (C3 it' Rs)).
        * exists 3, (Err e), (put h2 (j_it j) it'). rewrite S3, T3. split; [reflexivity|now apply C3].
    - exists 1, (Err e), (put h (j_it j) it). cbn [solo]. rewrite T1. split; [reflexivity|now apply Cp].
  Qed.
  (** A call that ends when it is made alone: for some bound on its rounds the outcome is not "out of fuel". *)
  Definition ends_alone (h : heap) (j : job) : Prop :=
    exists it, nth_error h (j_it j) = Some it /\ exists clock fuel lg, fst (run clock fuel (AObj (j_alg j) (j_priors j) it lg) (j_data j)) <> Err OutOfFuel.
  Lemma call_steps (j : job) js h0 h dn : real (j_data j) -> ends_alone h0 j -> same_config h h0 ->
    exists n o h', solo n (Thread (j :: js) AtStart dn) h = (Thread js AtStart (dn ++ [o]), h') /\ same_config h' h.
  Proof.
    intros R (it0 & E0 & clock & fuel & lg & H) C. destruct (config_at h0 h _ it0 (fun r => eq_sym (C r)) E0) as (it & Eh & Rs).
    assert (Cp : forall it', reset it' = reset it -> same_config (put h (j_it j) it') h) by (intros it'; now apply put_config).
    assert (T : tstep (Thread (j :: js) AtStart dn) h = if Nat.eqb (num_claims (j_data j)) 0 then (Thread js AtStart (dn ++ [Err EmptyDatasetError]), put h (j_it j) it) else
      match init (j_alg j) (j_priors j) (j_data j) with None => (Thread js AtStart (dn ++ [Err InvalidPriorError]), put h (j_it j) (reset it)) | Some x => (Thread (j :: js) (AtTest x) dn, put h (j_it j) (reset it)) end).
    { unfold tstep. cbn [t_jobs]. rewrite Eh. unfold jstep. cbn [t_place t_done]. destruct (Nat.eqb _ _); [reflexivity|]. destruct (init _ _ _); reflexivity. }
    destruct (Nat.eqb (num_claims (j_data j)) 0) eqn:En; [exists 1, (Err EmptyDatasetError), (put h (j_it j) it); cbn [solo]; rewrite T; split; [reflexivity|now apply Cp]|].
    apply Nat.eqb_neq in En. destruct (init (j_alg j) (j_priors j) (j_data j)) as [x0|] eqn:Ei; [|exists 1, (Err InvalidPriorError), (put h (j_it j) (reset it)); cbn [solo]; rewrite T; split; [reflexivity|apply Cp, reset_reset]].
    assert (H' : fst (fst (loop j x0 fuel (reset it) 0)) <> Err OutOfFuel).
    { intros Q. apply H. pose proof (run_rounds clock fuel j it0 lg R En) as U. rewrite Ei, <- Rs in U. destruct (loop j x0 fuel (reset it) 0) as [[r k] it'] eqn:El. cbn [fst] in Q. subst r.
      destruct (fst (run clock fuel (AObj (j_alg j) (j_priors j) it0 lg) (j_data j))); [discriminate U|]. injection U as ->. reflexivity. }
    destruct (loop_steps j js x0 R En Ei fuel (reset it) 0 dn (put h (j_it j) (reset it))) as (n & o & h' & Eo & Co); [now rewrite nth_put, Nat.eqb_refl, Eh|exact H'|].
    exists (Datatypes.S n), o, h'. cbn [solo]. rewrite T. split; [exact Eo|]. apply (config_trans _ _ _ Co). apply Cp, reset_reset.
  Qed.
  Lemma all_steps h0 js : forall h dn, (forall j, In j js -> real (j_data j) /\ ends_alone h0 j) -> same_config h h0 -> exists n, t_jobs (fst (solo n (Thread js AtStart dn) h)) = [].
  Proof.
    induction js as [|j js IH]; intros h dn H C; [now exists 0|]. destruct (H j (or_introl eq_refl)) as (R & A). destruct (call_steps j js h0 h dn R A C) as (n & o & h' & E & C').
    destruct (IH h' (dn ++ [o]) (fun l Hl => H l (or_intror Hl)) (config_trans _ _ _ C' C)) as (m & Em). exists (n + m). rewrite solo_add, E. exact Em.
  Qed.
  (** If all calls of a thread would end alone, the thread has made them all, with these outcomes, as soon as it has been given a certain number of
      steps, whatever the others do. *)
  Theorem C102_all_done calls h i js : separate calls -> proper calls h -> nth_error calls i = Some js -> (forall j, In j js -> ends_alone h j) ->
    exists n, forall schedule, (n <= count_occ Nat.eq_dec schedule i)%nat -> Forall2 (alone h) js (outcomes (wrun (starting calls h) schedule) i).
  Proof.
    intros Sep Pr E Al. assert (Real : forall j, In j js -> real (j_data j)) by (intros j Hj; exact (proj2 (Pr js j (nth_error_In _ _ E) Hj))).
    destruct (all_steps h js h [] (fun j Hj => conj (Real j Hj) (Al j Hj)) (fun r => eq_refl)) as (n & En). exists n. intros schedule Hn.
    rewrite (C102_own_steps calls h i schedule Sep). set (m := count_occ Nat.eq_dec schedule i) in *.
    assert (Et : nth_error (fst (starting calls h)) i = Some (Thread js AtStart [])) by (cbn [starting fst]; rewrite nth_error_map, E; reflexivity).
    destruct (solo_wrun m _ i _ Et) as (Q & _). unfold outcomes. rewrite Q. cbn [starting snd].
    destruct (good_solo js h m Real _ _ (good_start js h)) as (_ & (d & Ed & Fd) & _).
    assert (Ej : t_jobs (fst (solo m (Thread js AtStart []) h)) = []).
    { replace m with (n + (m - n)) by lia. rewrite solo_add. destruct (solo n (Thread js AtStart []) h) as [t1 h1] eqn:E1. cbn [fst] in En. now rewrite solo_done. }
    rewrite Ej, app_nil_r in Ed. subst d. exact Fd.
  Qed.

  (** ** Threads that share an iterator object interfere *)
  (* algorithms that go on until the iterator stops them *)
  Definition persistent (a : alg F) : Prop := match a with Sums | AverageLog | CRH _ => True | _ => False end.
  Lemma persistent_on a d x0 k : persistent a -> stops (S:=S) (V:=V) (W:=W) a d x0 k = false.
  Proof.
    intros H. unfold stops. destruct a; try destruct H; cbn [round].
    - unfold sums_upd. destruct (scores _ _ _ _). destruct (pymax _); [|reflexivity]. destruct (pymax _); reflexivity.
    - unfold avlog_upd. destruct (scores _ _ _ _). destruct (pymax _); [|reflexivity]. destruct (pymax _); reflexivity.
    - unfold crh_upd. destruct (scores _ _ _ _). reflexivity.
  Qed.

  Lemma fixed_alone (j : job) x0 n lim c : real (j_data j) -> num_claims (j_data j) <> 0%nat -> init (j_alg j) (j_priors j) (j_data j) = Some x0 -> persistent (j_alg j) ->
    exists tr be, finish j (IFixed lim c) (at_round j x0 n) = Ok (tr, be, Some c) /\
      forall c' clock fuel lg, (n < fuel)%nat -> untimed (fst (run clock fuel (AObj (j_alg j) (j_priors j) (IFixed (Z.of_nat n) c') lg) (j_data j))) = Ok (tr, be, Some n).
  Proof.
    intros R Nc Ei Pe. assert (U : forall c' clock fuel lg, (n < fuel)%nat -> untimed (fst (run clock fuel (AObj (j_alg j) (j_priors j) (IFixed (Z.of_nat n) c') lg) (j_data j))) = finish j (IFixed (Z.of_nat n) n) (at_round j x0 n)).
    { intros c' clock fuel lg Hf. rewrite run_rounds by assumption. rewrite Ei. cbn [reset].
      rewrite (it_loop_fixed _ _ _ fuel (Z.of_nat n) 0 0 n); [rewrite Nat.sub_0_r; reflexivity|lia| |right; lia|lia]. intros i Hi. split; [now apply persistent_on|lia]. }
    destruct R as (b & f & ts & Hb). assert (NE : ts <> []) by now apply (nonempty (j_data j) b f).
    assert (Ha : j_alg j <> UnboundedSums) by (intros Q; rewrite Q in Pe; exact Pe).
    assert (Hp : j_priors j <> BadPrior \/ exists e, j_alg j = CRH e).
    { destruct (j_alg j) as [| | | | |e|] eqn:Ea; try destruct Pe; try (right; now exists e); left; intros Q; rewrite Q in Ei; discriminate Ei. }
    assert (Ok1 : exists r, fst (run (fun _ => n_ofZ 0) (Datatypes.S n) (AObj (j_alg j) (j_priors j) (IFixed (Z.of_nat n) 0) None) (j_data j)) = Ok r).
    { destruct Hp as [Hp|(e & Ea)]; [apply (C28_fixed_returns b f ts (j_data j) Hb); auto; lia|].
      assert (Same : forall p, init (j_alg j) p (j_data j) = init (j_alg j) (j_priors j) (j_data j)) by (intros p; rewrite Ea; reflexivity).
      assert (Q : exists r, fst (run (fun _ => n_ofZ 0) (Datatypes.S n) (AObj (j_alg j) FIXED (IFixed (Z.of_nat n) 0) None) (j_data j)) = Ok r) by (apply (C28_fixed_returns b f ts (j_data j) Hb); auto; [discriminate|lia]).
      rewrite (run_char (fun _ => n_ofZ 0) ts f (j_data j) (build_rep _ _ _ _ Hb) NE) in Q |- *. rewrite Same in Q. destruct (init (j_alg j) (j_priors j) (j_data j)); [|discriminate Ei].
      destruct (it_loop _ _ _ _ _ _) as [[r k] it']. exact Q. }
    destruct Ok1 as (r & Er). pose proof (U 0%nat (fun _ => n_ofZ 0) (Datatypes.S n) None ltac:(lia)) as Ur. rewrite Er in Ur. cbn [untimed] in Ur.
    assert (Fin : forall it, final (j_alg j) it (at_round j x0 n) = Ok (at_round j x0 n)) by (intros it; destruct (j_alg j); try destruct Pe; reflexivity).
    unfold finish in Ur, U |- *. rewrite Fin in *. destruct (at_round j x0 n) as [tr be]. destruct (get_source_trust_dict (j_data j) tr) as [td|]; [|discriminate Ur]. destruct (get_belief_dict (j_data j) be) as [bd|]; [|discriminate Ur].
    exists td, bd. split; [reflexivity|]. intros c' clock fuel lg Hf. exact (U c' clock fuel lg Hf).
  Qed.
  (** the steps of a thread whose iterator is a fixed one *)
  Lemma step_start (w : world) i j js dn it x0 : nth_error (fst w) i = Some (Thread (j :: js) AtStart dn) -> nth_error (snd w) (j_it j) = Some it -> num_claims (j_data j) <> 0%nat ->
    init (j_alg j) (j_priors j) (j_data j) = Some x0 -> wstep w i = (put (fst w) i (Thread (j :: js) (AtTest x0) dn), put (snd w) (j_it j) (reset it)).
  Proof. intros E Eh Nc Ei. unfold wstep. rewrite E. unfold tstep. cbn [t_jobs]. rewrite Eh. unfold jstep. cbn [t_place t_done]. apply Nat.eqb_neq in Nc. rewrite Nc, Ei. reflexivity. Qed.
  Lemma step_test (w : world) i j js dn x lim c : nth_error (fst w) i = Some (Thread (j :: js) (AtTest x) dn) -> nth_error (snd w) (j_it j) = Some (IFixed lim c) ->
    wstep w i = (put (fst w) i (Thread (j :: js) (if (lim <=? Z.of_nat c)%Z then AtEnd x else AtRound x) dn), put (snd w) (j_it j) (IFixed lim c)).
  Proof. intros E Eh. unfold wstep. rewrite E. unfold tstep. cbn [t_jobs]. rewrite Eh. unfold jstep. cbn [t_place t_done finished]. destruct (lim <=? Z.of_nat c)%Z; reflexivity. Qed.
  Lemma step_round (w : world) i j js dn x0 k lim c : nth_error (fst w) i = Some (Thread (j :: js) (AtRound (at_round j x0 k)) dn) -> nth_error (snd w) (j_it j) = Some (IFixed lim c) ->
    real (j_data j) -> num_claims (j_data j) <> 0%nat -> init (j_alg j) (j_priors j) (j_data j) = Some x0 -> persistent (j_alg j) ->
    wstep w i = (put (fst w) i (Thread (j :: js) (AtCompare (cmp1 (j_alg j) (j_data j) x0 k) (cmp2 (j_alg j) (j_data j) x0 k) (at_round j x0 (Datatypes.S k))) dn), put (snd w) (j_it j) (IFixed lim (Datatypes.S c))).
  Proof. intros E Eh R Nc Ei Pe. unfold wstep. rewrite E. unfold tstep. cbn [t_jobs]. rewrite Eh. unfold jstep. cbn [t_place t_done]. rewrite (round_next j x0 k R Nc Ei), (persistent_on _ _ _ _ Pe). reflexivity. Qed.
  Lemma step_compare (w : world) i j js dn u v x lim c : nth_error (fst w) i = Some (Thread (j :: js) (AtCompare u v x) dn) -> nth_error (snd w) (j_it j) = Some (IFixed lim c) ->
    wstep w i = (put (fst w) i (Thread (j :: js) (AtTest x) dn), put (snd w) (j_it j) (IFixed lim c)).
  Proof. intros E Eh. unfold wstep. rewrite E. unfold tstep. cbn [t_jobs]. rewrite Eh. reflexivity. Qed.
  Lemma step_end (w : world) i j js dn x it : nth_error (fst w) i = Some (Thread (j :: js) (AtEnd x) dn) -> nth_error (snd w) (j_it j) = Some it ->
    wstep w i = (put (fst w) i (Thread js AtStart (dn ++ [finish j it x])), put (snd w) (j_it j) it).
  Proof.
    intros E Eh. unfold wstep. rewrite E. unfold tstep. cbn [t_jobs]. rewrite Eh. unfold jstep, finish. cbn [t_place t_done].
    destruct (final _ _ _) as [[tr be]|e]; [|reflexivity]. destruct (get_source_trust_dict _ _); [|reflexivity]. destruct (get_belief_dict _ _); reflexivity.
  Qed.

  Lemma go_on (w w' : world) i s : wstep w i = w' -> wrun w (i :: s) = wrun w' s.
  Proof. intros <-. reflexivity. Qed.
  Lemma wrun_app (w : world) s s' : wrun w (s ++ s') = wrun (wrun w s) s'.
  Proof. apply fold_left_app. Qed.

  (** Two threads sharing a FixedIterator(2n): there is a schedule in which each does only n rounds, and still both report 2n. *)
  Theorem C102_shared_iterator_refuted (a1 a2 : alg F) (p1 p2 : prior) (d1 d2 : data) n c : real d1 -> real d2 -> num_claims d1 <> 0%nat -> num_claims d2 <> 0%nat ->
    p1 <> BadPrior -> p2 <> BadPrior -> persistent a1 -> persistent a2 ->
    exists schedule t1 b1 t2 b2,
      (let w := wrun (starting [[Job a1 p1 0 d1]; [Job a2 p2 0 d2]] [IFixed (Z.of_nat (2 * n)) c]) schedule in
       outcomes w 0 = [Ok (t1, b1, Some (2 * n)%nat)] /\ outcomes w 1 = [Ok (t2, b2, Some (2 * n)%nat)]) /\
      forall clock fuel lg, (n < fuel)%nat ->
        untimed (fst (run clock fuel (AObj a1 p1 (IFixed (Z.of_nat n) 0) lg) d1)) = Ok (t1, b1, Some n) /\
        untimed (fst (run clock fuel (AObj a2 p2 (IFixed (Z.of_nat n) 0) lg) d2)) = Ok (t2, b2, Some n).
  Proof.
    intros R1 R2 N1 N2 H1 H2 P1 P2. set (j1 := Job a1 p1 0 d1). set (j2 := Job a2 p2 0 d2). set (lim := Z.of_nat (2 * n)).
    assert (I1 : exists x, init a1 p1 d1 = Some x) by (destruct a1, p1; try destruct P1; try congruence; eexists; reflexivity).
    assert (I2 : exists x, init a2 p2 d2 = Some x) by (destruct a2, p2; try destruct P2; try congruence; eexists; reflexivity).
    destruct I1 as (x1 & E1). destruct I2 as (x2 & E2).
    assert (Mid : forall m, (m <= n)%nat -> exists sch, wrun (starting [[j1]; [j2]] [IFixed lim c]) sch =
      ([Thread [j1] (AtTest (at_round j1 x1 m)) []; Thread [j2] (AtTest (at_round j2 x2 m)) []], [IFixed lim (2 * m)])).
    { induction m as [|m IH]; intros Hm.
      - exists [0; 1]%nat. erewrite go_on by (eapply (step_start _ 0 j1 [] [] (IFixed lim c) x1); auto; reflexivity). erewrite go_on by (apply (step_start _ 1 j2 [] [] (IFixed lim 0) x2); first [assumption|reflexivity]). reflexivity.
      - destruct (IH ltac:(lia)) as (sch & E). exists (sch ++ [0; 0; 0; 1; 1; 1]%nat). rewrite wrun_app, E.
        assert (T1 : (lim <=? Z.of_nat (2 * m))%Z = false) by (apply Z.leb_gt; unfold lim; lia). assert (T2 : (lim <=? Z.of_nat (Datatypes.S (2 * m)))%Z = false) by (apply Z.leb_gt; unfold lim; lia).
        erewrite go_on by (eapply (step_test _ 0 j1 [] [] _ lim (2 * m)); first [assumption|reflexivity]). rewrite T1. cbn [fst snd put j_it j1].
        erewrite go_on by (eapply (step_round _ 0 j1 [] [] x1 m lim (2 * m)); first [assumption|reflexivity]). cbn [fst snd put j_it j1].
        erewrite go_on by (eapply (step_compare _ 0 j1 [] [] _ _ _ lim (Datatypes.S (2 * m))); first [assumption|reflexivity]). cbn [fst snd put j_it j1].
        erewrite go_on by (eapply (step_test _ 1 j2 [] [] (at_round j2 x2 m) lim (Datatypes.S (2 * m))); first [assumption|reflexivity]). rewrite T2. cbn [fst snd put j_it j2].
        erewrite go_on by (eapply (step_round _ 1 j2 [] [] x2 m lim (Datatypes.S (2 * m))); first [assumption|reflexivity]). cbn [fst snd put j_it j2].
        erewrite go_on by (eapply (step_compare _ 1 j2 [] [] _ _ _ lim (Datatypes.S (Datatypes.S (2 * m)))); first [assumption|reflexivity]). cbn [fst snd put j_it j2]. replace (Datatypes.S (Datatypes.S (2 * m))) with (2 * Datatypes.S m)%nat by lia. reflexivity. }
    destruct (Mid n ltac:(lia)) as (sch & E).
    destruct (fixed_alone j1 x1 n lim (2 * n) R1 N1 E1 P1) as (t1 & b1 & F1 & A1). destruct (fixed_alone j2 x2 n lim (2 * n) R2 N2 E2 P2) as (t2 & b2 & F2 & A2).
    exists (sch ++ [0; 0; 1; 1]%nat), t1, b1, t2, b2. split.
    - cbv zeta. rewrite wrun_app. rewrite E. assert (T : (lim <=? Z.of_nat (2 * n))%Z = true) by (apply Z.leb_le; unfold lim; lia).
      erewrite go_on by (eapply (step_test _ 0 j1 [] [] _ lim (2 * n)); first [assumption|reflexivity]). rewrite T. cbn [fst snd put j_it j1].
      erewrite go_on by (eapply (step_end _ 0 j1 [] [] _ (IFixed lim (2 * n))); first [assumption|reflexivity]). cbn [fst snd put j_it j1].
      erewrite go_on by (eapply (step_test _ 1 j2 [] [] (at_round j2 x2 n) lim (2 * n)); first [assumption|reflexivity]). rewrite T. cbn [fst snd put j_it j2].
      erewrite go_on by (eapply (step_end _ 1 j2 [] [] _ (IFixed lim (2 * n))); first [assumption|reflexivity]). cbn [fst snd put j_it j2]. rewrite F1, F2. split; reflexivity.
    - intros clock fuel lg Hf. split; [now apply (A1 0%nat)|now apply (A2 0%nat)].
  Qed.

  (** A thread with a FixedIterator(1) that another thread uses too: for every k >= 1 there is a schedule in which it does k rounds, and still
      reports 1. *)
  Theorem C102_shared_iterator_unbounded (a : alg F) (p : prior) (d : data) k c : real d -> num_claims d <> 0%nat -> p <> BadPrior -> persistent a -> (1 <= k)%nat ->
    exists schedule t b,
      outcomes (wrun (starting [[Job a p 0 d]; repeat (Job a p 0 d) k] [IFixed 1 c]) schedule) 0 = [Ok (t, b, Some 1%nat)] /\
      forall clock fuel lg, (k < fuel)%nat -> untimed (fst (run clock fuel (AObj a p (IFixed (Z.of_nat k) 0) lg) d)) = Ok (t, b, Some k).
  Proof.
    intros R Nc Hp Pe Hk. set (j := Job a p 0 d).
    assert (Ix : exists x, init a p d = Some x) by (destruct a, p; try destruct Pe; try congruence; eexists; reflexivity). destruct Ix as (x0 & Ei).
    assert (Mid : forall m, (m < k)%nat -> exists sch dn, wrun (starting [[j]; repeat j k] [IFixed 1 c]) sch =
      ([Thread [j] (AtTest (at_round j x0 (Datatypes.S m))) []; Thread (repeat j (k - m)) AtStart dn], [IFixed 1 1])).
    { induction m as [|m IH]; intros Hm.
      - exists [0; 0; 0; 0]%nat, []. rewrite Nat.sub_0_r. unfold starting. cbn [map].
        erewrite go_on by (eapply (step_start _ 0 j [] [] (IFixed 1 c) x0); first [assumption|reflexivity]). cbn [fst snd put j_it j reset].
        erewrite go_on by (eapply (step_test _ 0 j [] [] _ 1 0); first [assumption|reflexivity]). cbn [fst snd put j_it j Z.leb Z.of_nat Z.compare].
        erewrite go_on by (eapply (step_round _ 0 j [] [] x0 0 1 0); first [assumption|reflexivity]). cbn [fst snd put j_it j].
        erewrite go_on by (eapply (step_compare _ 0 j [] [] _ _ _ 1 1); first [assumption|reflexivity]). reflexivity.
      - destruct (IH ltac:(lia)) as (sch & dn & E). exists (sch ++ [1; 0; 0; 0; 1; 1]%nat). eexists. rewrite wrun_app, E.
        replace (k - m)%nat with (Datatypes.S (k - Datatypes.S m)) by lia. cbn [repeat]. set (js := repeat j (k - Datatypes.S m)).
        erewrite go_on by (eapply (step_start _ 1 j js dn (IFixed 1 1) x0); first [assumption|reflexivity]). cbn [fst snd put j_it j reset].
        erewrite go_on by (eapply (step_test _ 0 j [] [] _ 1 0); first [assumption|reflexivity]). cbn [fst snd put j_it j Z.leb Z.of_nat Z.compare].
        erewrite go_on by (eapply (step_round _ 0 j [] [] x0 (Datatypes.S m) 1 0); first [assumption|reflexivity]). cbn [fst snd put j_it j].
        erewrite go_on by (eapply (step_compare _ 0 j [] [] _ _ _ 1 1); first [assumption|reflexivity]). cbn [fst snd put j_it j].
        erewrite go_on by (eapply (step_test _ 1 j js dn x0 1 1); first [assumption|reflexivity]). cbn [fst snd put j_it j].
        change (1 <=? Z.of_nat 1)%Z with true. cbv iota.
        erewrite go_on by (eapply (step_end _ 1 j js dn _ (IFixed 1 1)); first [assumption|reflexivity]). reflexivity. }
    destruct (Mid (k - 1)%nat ltac:(lia)) as (sch & dn & E). replace (Datatypes.S (k - 1)) with k in E by lia.
    destruct (fixed_alone j x0 k 1 1 R Nc Ei Pe) as (t & b & Ft & A). exists (sch ++ [0; 0]%nat), t, b. split.
    - fold j. rewrite wrun_app, E. erewrite go_on by (eapply (step_test _ 0 j [] [] _ 1 1); first [assumption|reflexivity]). cbn [fst snd put j_it j].
      change (1 <=? Z.of_nat 1)%Z with true. cbv iota. erewrite go_on by (eapply (step_end _ 0 j [] [] _ (IFixed 1 1)); first [assumption|reflexivity]).
      cbn [fst snd put j_it j]. rewrite Ft. reflexivity.
    - intros clock fuel lg Hf. now apply (A 0%nat).
  Qed.
End Threads.

(** ** Non-vacuity *)
Module ThreadExamples.
  (* two threads, the first making two calls with one iterator object, the second one call with another *)
  Example c102_case : exists d : dataset nat nat nat XR, real d /\ num_claims d <> 0%nat /\
    let first := [Job Sums FIXED 0 d; Job (CRH (Fin 1%R)) VOTED 0 d] in
    let calls := [first; [Job (Investment (Fin 2%R)) FIXED 1 d]] in
    let h := [IFixed 7 3; mk_conv COSINE None (Some 5%Z)] in
    separate calls /\ proper calls h /\ forall j, In j first -> ends_alone h j.
  Proof.
    destruct RunExamples.ds1 as [d E]. exists d. assert (R : real d) by (exists true, None, RunExamples.ts1; exact E). split; [exact R|]. split; [rewrite (rep_nc _ _ _ (build_rep _ _ _ _ E)); cbn; lia|].
    cbv zeta. split; [|split].
    - intros i k js ks j l Hi Hk Hik Hj Hl. destruct i as [|[|[|i]]]; cbn in Hi; try discriminate Hi; destruct k as [|[|[|k]]]; cbn in Hk; try discriminate Hk; try congruence; injection Hi as <-; injection Hk as <-;
        cbn in Hj, Hl; repeat destruct Hj as [<-|Hj]; try destruct Hj; repeat destruct Hl as [<-|Hl]; try destruct Hl; cbn; discriminate.
    - intros js j Hjs Hj. cbn in Hjs. repeat destruct Hjs as [<-|Hjs]; try destruct Hjs; cbn in Hj; repeat destruct Hj as [<-|Hj]; try destruct Hj; cbn [j_it j_data length]; split; auto; lia.
    - assert (NE : RunExamples.ts1 <> []) by discriminate. assert (L : (Z.to_nat 7 < 8)%nat) by (cbn; lia).
      intros j Hj. exists (IFixed 7 3). cbn in Hj. repeat destruct Hj as [<-|Hj]; try destruct Hj; (split; [reflexivity|]); exists (fun _ => Fin 0%R), 8%nat, None; cbn [j_alg j_priors j_data].
      + destruct (C28_fixed_returns true None RunExamples.ts1 d E (fun _ => Fin 0%R) 8 Sums FIXED 7%Z 3 None NE ltac:(discriminate) ltac:(discriminate) L) as (r & Er). intros Q. pose proof (eq_trans (eq_sym Er) Q) as Q'. discriminate Q'.
      + destruct (C28_fixed_returns true None RunExamples.ts1 d E (fun _ => Fin 0%R) 8 (CRH (Fin 1%R)) VOTED 7%Z 3 None NE ltac:(discriminate) ltac:(discriminate) L) as (r & Er). intros Q. pose proof (eq_trans (eq_sym Er) Q) as Q'. discriminate Q'.
  Qed.
End ThreadExamples.
