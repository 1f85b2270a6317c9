(** Property theorems about Dataset construction: C01-C08.  Specification vocabulary: Spec.v (labels only). *)
From Coq Require Import Reals Lra Relations.
From Verif Require Import Base Num Sparse Spec Dataset DatasetProofs DatasetRep.

(** entry (i, j) of a sparse matrix, as [M.toarray()[i, j]] shows it *)
Definition at_ {F : Num} (M : mat F) (i j : nat) : F := if m_stored M i j then m_entry M i j else n_ofZ 0.

Section Data.
  Context {S V W : Type} {ES : Eqb S} {EV : Eqb V} {EW : Eqb W} {F : Num} {FOK : NumOK F}.
  Notation triple := (S * V * W)%type.
  Notation claim := (V * W)%type.
  Notation build := (@build S V W ES EV EW F).
  Implicit Types (ts : list triple) (d : dataset S V W F).

  (** Observable id lookups of a dataset: [source_ids.inverse[i]], [source_ids[s]], the same for variables, and for
      claims through the two-level encoding (claim id -> (variable id, value hash) -> labels). *)
  Definition source_at d i : option S := inverse (source_ids d) i.
  Definition source_id d s : option nat := get_id_noinsert (source_ids d) s.
  Definition variable_at d i : option V := inverse (var_ids d) i.
  Definition variable_id d x : option nat := get_id_noinsert (var_ids d) x.
  Definition claim_at d j : option claim :=
    match inverse (claim_ids d) j with
    | None => None
    | Some (k, h) => match inverse (var_ids d) k, inverse (val_hashes d) h with Some x, Some w => Some (x, w) | _, _ => None end
    end.
  Definition claim_id d (c : claim) : option nat :=
    match get_id_noinsert (var_ids d) (fst c), get_id_noinsert (val_hashes d) (snd c) with
    | Some k, Some h => get_id_noinsert (claim_ids d) (k, h)
    | _, _ => None
    end.

  Lemma get_id_ids_iff {L} {EL : Eqb L} (l : list L) a i : NoDup l -> (get_id_noinsert (ids l) a = Some i <-> nth_error l i = Some a).
  Proof.
    intros ND. unfold get_id_noinsert. rewrite dget_ids. rewrite (nth_error_pos_iff _ _ _ ND).
    destruct (mem a l) eqn:M.
    - apply mem_In in M. split; [intros [= <-]; auto|intros [_ ->]; reflexivity].
    - apply mem_false in M. split; [discriminate|tauto].
  Qed.

  Lemma claim_at_rep ts impf d j : ds_rep ts impf d -> claim_at d j = nth_error (claims ts) j.
  Proof.
    intros R. unfold claim_at. rewrite (rep_cl _ _ _ R), (rep_var _ _ _ R), (rep_val _ _ _ R), inverse_ids, nth_error_map.
    destruct (nth_error (claims ts) j) as [c|] eqn:E; [|reflexivity]. cbn. apply nth_error_In in E.
    rewrite !inverse_ids, !nth_error_pos by (now apply claims_var || now apply claims_val). now destruct c.
  Qed.
  Lemma claim_id_rep ts impf d c j : ds_rep ts impf d -> (claim_id d c = Some j <-> nth_error (claims ts) j = Some c).
  Proof.
    intros R. unfold claim_id, get_id_noinsert. rewrite (rep_cl _ _ _ R), (rep_var _ _ _ R), (rep_val _ _ _ R), !dget_ids.
    rewrite nth_error_pos_iff by apply claims_NoDup.
    destruct (mem (fst c) (variables ts)) eqn:M1.
    2:{ apply mem_false in M1. split; [discriminate|]. intros [H _]. now apply claims_var in H. }
    destruct (mem (snd c) (values ts)) eqn:M2.
    2:{ apply mem_false in M2. split; [discriminate|]. intros [H _]. now apply claims_val in H. }
    apply mem_In in M1, M2. rewrite dget_ids.
    change (pos (fst c) (variables ts), pos (snd c) (values ts)) with (enc (variables ts) (values ts) c).
    destruct (pos_map_enc (variables ts) (values ts) (claims ts) c) as [P1 P2]; auto.
    { intros c' H. split; [now apply claims_var|now apply claims_val]. }
    rewrite P1, P2. destruct (mem c (claims ts)) eqn:M.
    - apply mem_In in M. split; [intros [= <-]; auto|intros [_ ->]; reflexivity].
    - apply mem_false in M. split; [discriminate|tauto].
  Qed.

  (** C01.  Ids are dense, first-come and two-way. *)
  Theorem C01_ids_dense_first_come b impf ts d : build b impf ts = Ok d ->
    num_sources d = length (sources ts) /\ num_variables d = length (variables ts) /\ num_claims d = length (claims ts) /\
    (forall i, source_at d i = nth_error (sources ts) i) /\
    (forall s i, source_id d s = Some i <-> source_at d i = Some s) /\
    (forall i, variable_at d i = nth_error (variables ts) i) /\
    (forall x i, variable_id d x = Some i <-> variable_at d i = Some x) /\
    (forall j, claim_at d j = nth_error (claims ts) j) /\
    (forall c j, claim_id d c = Some j <-> claim_at d j = Some c).
  Proof.
    intros H. apply build_rep in H. pose proof (rep_src _ _ _ H) as Rs. pose proof (rep_var _ _ _ H) as Rv.
    unfold source_at, source_id, variable_at, variable_id. rewrite Rs, Rv.
    repeat apply conj.
    - apply (rep_ns _ _ _ H).
    - apply (rep_nv _ _ _ H).
    - apply (rep_nc _ _ _ H).
    - intros. apply inverse_ids.
    - intros. rewrite inverse_ids. apply get_id_ids_iff, sources_NoDup.
    - intros. apply inverse_ids.
    - intros. rewrite inverse_ids. apply get_id_ids_iff, variables_NoDup.
    - intros. now apply claim_at_rep with impf.
    - intros. rewrite (claim_at_rep _ _ _ _ H). now apply claim_id_rep with impf.
  Qed.
  (** C01, stability: appending triples keeps every id. *)
  Theorem C01_ids_stable b impf ts d b' impf' more d' :
    build b impf ts = Ok d -> build b' impf' (ts ++ more) = Ok d' ->
    (forall s i, source_id d s = Some i -> source_id d' s = Some i) /\
    (forall x i, variable_id d x = Some i -> variable_id d' x = Some i) /\
    (forall c j, claim_id d c = Some j -> claim_id d' c = Some j).
  Proof.
    intros H H'. apply build_rep in H, H'.
    assert (G : forall A (l m r : list A) i a, m = l ++ r -> nth_error l i = Some a -> nth_error m i = Some a).
    { intros A l m r i a -> E. rewrite nth_error_app1; [exact E|]. apply nth_error_Some. congruence. }
    repeat apply conj.
    - intros s i E. unfold source_id in *. rewrite (rep_src _ _ _ H) in E. rewrite (rep_src _ _ _ H').
      apply get_id_ids_iff in E; [|apply sources_NoDup]. apply get_id_ids_iff; [apply sources_NoDup|].
      unfold sources in *. rewrite map_app. destruct (distinct_app_prefix (map t_src ts) (map t_src more)) as [r Er].
      eapply G; eassumption.
    - intros s i E. unfold variable_id in *. rewrite (rep_var _ _ _ H) in E. rewrite (rep_var _ _ _ H').
      apply get_id_ids_iff in E; [|apply variables_NoDup]. apply get_id_ids_iff; [apply variables_NoDup|].
      unfold variables in *. rewrite map_app. destruct (distinct_app_prefix (map t_var ts) (map t_var more)) as [r Er].
      eapply G; eassumption.
    - intros c j E. apply (claim_id_rep _ _ _ _ _ H) in E. apply (claim_id_rep _ _ _ _ _ H').
      assert (P : exists r, claims (ts ++ more) = claims ts ++ r).
      { clear. induction more as [|t more IH] using rev_ind; [exists []; now rewrite !app_nil_r|].
        destruct IH as [r IH]. rewrite app_assoc, claims_snoc, IH.
        destruct (first_claim (ts ++ more) (t_src t) (t_var t)); [eauto|]. unfold grow.
        destruct (mem (t_claim t) (claims ts ++ r)); [eauto|]. exists (r ++ [t_claim t]). now rewrite app_assoc. }
      destruct P as [r P]. eapply G; eassumption.
  Qed.

  (** C02.  Strict mode fails exactly when some source lists a variable twice, and names the first such pair ... *)
  Theorem C02_strict_error_iff impf ts s x :
    build false impf ts = Err (MultipleClaims s x) <-> first_repeat ts s x.
  Proof.
    destruct (build_strict impf ts) as [(ND & _ & d & E & _)|[(ND & _ & E)|(s' & x' & R & E)]]; rewrite E; split; intros H;
      try discriminate; try (exfalso; apply first_repeat_not_NoDup in H; contradiction).
    - injection H as -> ->. exact R.
    - destruct (first_repeat_unique ts s x s' x' H R) as [-> ->]. reflexivity.
  Qed.
  (** ... a repeated pair exists exactly when strict mode rejects the triples; ... *)
  Theorem C02_strict_accepts_iff impf ts : imp_all_ok ts impf ->
    ((exists d, build false impf ts = Ok d) <-> NoDup (sv_pairs ts)).
  Proof.
    intros Hi. destruct (build_strict impf ts) as [(ND & _ & d & E & _)|[(ND & Hno & E)|(s' & x' & R & E)]].
    - rewrite E. split; eauto.
    - contradiction.
    - rewrite E. split; [intros [d H]; discriminate|]. intros ND. now apply first_repeat_not_NoDup in R.
  Qed.
  (** ... and [allow_multiple] never raises that error and builds the dataset of the first claims only. *)
  Theorem C02_allow_multiple_uses_first impf ts : imp_all_ok ts impf ->
    exists d, build true impf ts = Ok d /\
      forall s x w i j, source_at d i = Some s -> claim_at d j = Some (x, w) ->
        (first_claim ts s x = Some w -> at_ (sc d) i j = n_ofZ 1) /\
        (first_claim ts s x <> Some w -> at_ (sc d) i j = n_ofZ 0).
  Proof.
    intros Hi. destruct (build_allow impf ts) as [(_ & d & E & R)|(Hno & _)]; [|contradiction].
    exists d. split; [exact E|]. intros s x w i j Hs Hc. rewrite (claim_at_rep _ _ _ _ R) in Hc.
    unfold source_at in Hs. rewrite (rep_src _ _ _ R), inverse_ids in Hs.
    destruct (rep_sc _ _ _ R) as (_ & _ & H). destruct (H i j s (x, w) Hs Hc) as [H1 H2]. unfold at_. rewrite H1.
    split; intros A.
    - assert (Q : says ts s (x, w) = true) by (now apply says_true). rewrite Q. now apply H2.
    - destruct (says ts s (x, w)) eqn:Q; [|reflexivity]. apply says_true in Q. contradiction.
  Qed.
  (** Without repetitions the first claim is the only one: the matrix is exactly the set of triples. *)
  Theorem C02_strict_first_is_only impf ts d : build false impf ts = Ok d ->
    forall s x w, first_claim ts s x = Some w <-> In (s, x, w) ts.
  Proof.
    intros H s x w. apply first_claim_NoDup.
    destruct (build_strict impf ts) as [(ND & _)|[(ND & _)|(s' & x' & R & E)]]; auto. congruence.
  Qed.

  (** C03.  The source-claim matrix is exactly the claim relation. *)
  Theorem C03_sc_exact b impf ts d : build b impf ts = Ok d ->
    m_rows (sc d) = num_sources d /\ m_cols (sc d) = num_claims d /\
    forall i j, i < num_sources d -> j < num_claims d ->
      exists s x w, source_at d i = Some s /\ claim_at d j = Some (x, w) /\
        (first_claim ts s x = Some w -> at_ (sc d) i j = n_ofZ 1) /\
        (first_claim ts s x <> Some w -> at_ (sc d) i j = n_ofZ 0).
  Proof.
    intros H. apply build_rep in H. destruct (rep_sc _ _ _ H) as (Hr & Hc & Hm).
    rewrite (rep_ns _ _ _ H), (rep_nc _ _ _ H). split; [exact Hr|split; [exact Hc|]]. intros i j Hi Hj.
    apply nth_error_Some in Hi, Hj. destruct (nth_error (sources ts) i) as [s|] eqn:Es; [|congruence].
    destruct (nth_error (claims ts) j) as [[x w]|] eqn:Ec; [|congruence].
    exists s, x, w. unfold source_at. rewrite (rep_src _ _ _ H), inverse_ids, (claim_at_rep _ _ _ _ H).
    repeat split; auto; destruct (Hm i j s (x, w) Es Ec) as [H1 H2]; unfold at_; rewrite H1; intros A.
    - assert (Q : says ts s (x, w) = true) by (now apply says_true). rewrite Q. now apply H2.
    - destruct (says ts s (x, w)) eqn:Q; [|reflexivity]. apply says_true in Q. contradiction.
  Qed.

  (** C04.  The mutual-exclusion matrix is 'same variable'. *)
  Theorem C04_mut_ex_exact b impf ts d : build b impf ts = Ok d ->
    m_rows (mut_ex d) = num_claims d /\ m_cols (mut_ex d) = num_claims d /\
    forall i j, i < num_claims d -> j < num_claims d ->
      exists x w x' w', claim_at d i = Some (x, w) /\ claim_at d j = Some (x', w') /\
        (x = x' -> at_ (mut_ex d) i j = n_ofZ 1) /\ (x <> x' -> at_ (mut_ex d) i j = n_ofZ 0).
  Proof.
    intros H. apply build_rep in H. destruct (rep_mut _ _ _ H) as (Hr & Hc & Hm).
    rewrite (rep_nc _ _ _ H). split; [exact Hr|split; [exact Hc|]]. intros i j Hi Hj.
    apply nth_error_Some in Hi, Hj. destruct (nth_error (claims ts) i) as [[x w]|] eqn:Ei; [|congruence].
    destruct (nth_error (claims ts) j) as [[x' w']|] eqn:Ej; [|congruence].
    exists x, w, x', w'. rewrite !(claim_at_rep _ _ _ _ H).
    destruct (Hm i j _ _ Ei Ej) as [H1 H2]. unfold same_var in *. cbn in H1, H2. unfold at_. rewrite H1.
    repeat split; auto; intros A.
    - subst x'. rewrite beq_refl in *. auto.
    - now rewrite beq_neq.
  Qed.

  (** C05.  The implication matrix holds exactly the user's values between distinct claims of one variable, everything
      else is 0; ... *)
  Theorem C05_imp_exact b impf ts d : build b impf ts = Ok d ->
    m_rows (imp d) = num_claims d /\ m_cols (imp d) = num_claims d /\
    forall i j x w x' w', claim_at d i = Some (x, w) -> claim_at d j = Some (x', w') ->
      at_ (imp d) i j =
        match impf with
        | Some f => if beq x x' && negb (beq w w') then match f x w w' with Some q => q | None => n_ofZ 0 end else n_ofZ 0
        | None => n_ofZ 0
        end.
  Proof.
    intros H. apply build_rep in H. destruct (rep_imp _ _ _ H) as (Hr & Hc & Hm).
    rewrite (rep_nc _ _ _ H). split; [exact Hr|split; [exact Hc|]]. intros i j x w x' w' Hi Hj.
    rewrite (claim_at_rep _ _ _ _ H) in Hi. rewrite (claim_at_rep _ _ _ _ H) in Hj. destruct (Hm i j _ _ Hi Hj) as [H1 H2]. unfold at_. rewrite H1.
    unfold imp_num, imp_val in *. cbn [fst snd] in *.
    assert (B : beq x x' && negb (beq ((x, w) : claim) (x', w')) = beq x x' && negb (beq w w')).
    { cbn. unfold pair_beq. cbn. destruct (beq x x'); reflexivity. }
    rewrite B in *. destruct impf as [f|]; [|now destruct (beq x x' && negb (beq w w'))].
    destruct (beq x x' && negb (beq w w')); [|reflexivity]. destruct (f x w w'); [|reflexivity]. now apply H2.
  Qed.
  (** ... and a value outside [-1, 1] between two such claims is the only other reason to fail.  (NaN is not rejected:
      it is neither < -1 nor > 1.) *)
  Theorem C05_bad_implication_iff b impf ts :
    build b impf ts = Err BadImplication <->
    (b = true \/ NoDup (sv_pairs ts)) /\
    exists f x w w' q, impf = Some f /\ w <> w' /\ In (x, w) (claims ts) /\ In (x, w') (claims ts) /\
      f x w w' = Some q /\ (n_ltb q (n_ofZ (-1)) = true \/ n_ltb (n_ofZ 1) q = true).
  Proof.
    assert (G : ~ imp_all_ok ts impf <-> exists f x w w' q, impf = Some f /\ w <> w' /\ In (x, w) (claims ts) /\
      In (x, w') (claims ts) /\ f x w w' = Some q /\ (n_ltb q (n_ofZ (-1)) = true \/ n_ltb (n_ofZ 1) q = true)).
    { split.
      - intros N. destruct impf as [f|].
        2:{ exfalso. apply N. intros c c' q _ _ H. unfold imp_val in H. now destruct (beq (fst c) (fst c') && negb (beq c c')). }
        assert (D : forall cs, (forall c c' q, In c cs -> In c' (claims ts) -> imp_val (Some f) c c' = Some q -> imp_in_range q = true) \/
            exists c c' q, In c cs /\ In c' (claims ts) /\ imp_val (Some f) c c' = Some q /\ imp_in_range q = false).
        { induction cs as [|c cs IH]; [left; intros ? ? ? []|].
          assert (D1 : forall cs', (forall c' q, In c' cs' -> imp_val (Some f) c c' = Some q -> imp_in_range q = true) \/
              exists c' q, In c' cs' /\ imp_val (Some f) c c' = Some q /\ imp_in_range q = false).
          { induction cs' as [|c' cs' IH']; [left; intros ? ? []|].
            destruct IH' as [IH'|(c1 & q & H1 & H2 & H3)]; [|right; exists c1, q; cbn; auto].
            destruct (imp_val (Some f) c c') as [q|] eqn:Eq.
            - destruct (imp_in_range q) eqn:Er; [|right; exists c', q; cbn; auto].
              left. intros c1 q1 [<-|Hi] Hv; [congruence|eauto].
            - left. intros c1 q1 [<-|Hi] Hv; [congruence|eauto]. }
          destruct (D1 (claims ts)) as [D1'|(c' & q & H1 & H2 & H3)]; [|right; exists c, c', q; cbn; auto].
          destruct IH as [IH|(c1 & c' & q & H1 & H2 & H3 & H4)]; [|right; exists c1, c', q; cbn; auto].
          left. intros c1 c' q [<-|Hi] Hc' Hv; eauto. }
        destruct (D (claims ts)) as [D'|(c & c' & q & H1 & H2 & H3 & H4)].
        + exfalso. apply N. exact D'.
        + unfold imp_val in H3. destruct c as [x w], c' as [x' w']. cbn [fst snd] in H3.
          destruct (beq_spec x x') as [<-|]; [|discriminate]. cbn [andb] in H3.
          destruct (beq_spec (x, w) (x, w')) as [|Nw]; [discriminate|]. cbn [negb] in H3.
          exists f, x, w, w', q. repeat split; auto; [congruence|].
          unfold imp_in_range in H4. apply negb_false_iff, orb_true_iff in H4. exact H4.
      - intros (f & x & w & w' & q & -> & Nw & Hc & Hc' & Hf & Hr) A.
        assert (Hv : imp_val (Some f) (x, w) (x, w') = Some q).
        { unfold imp_val. cbn [fst snd]. rewrite beq_refl, beq_neq by congruence. exact Hf. }
        specialize (A _ _ _ Hc Hc' Hv). unfold imp_in_range in A. apply negb_true_iff, orb_false_iff in A.
        destruct A as [A1 A2]. destruct Hr; congruence. }
    rewrite <- G. destruct b.
    - destruct (build_allow impf ts) as [(Hi & d & E & _)|(Hi & E)]; rewrite E; split; intros H; try discriminate; try tauto.
    - destruct (build_strict impf ts) as [(ND & Hi & d & E & _)|[(ND & Hi & E)|(s' & x' & R & E)]]; rewrite E; split; intros H;
        try discriminate; try tauto.
      destruct H as [[H|H] _]; [discriminate|]. now apply first_repeat_not_NoDup in R.
  Qed.
  (** No other failure is possible: the id maps and the matrix constructors never raise. *)
  Theorem C05_no_other_failure b impf ts e : build b impf ts = Err e -> e = BadImplication \/ exists s x, e = MultipleClaims s x.
  Proof.
    destruct b.
    - destruct (build_allow impf ts) as [(Hi & d & E & _)|(Hi & E)]; rewrite E; intros H; [discriminate|injection H as <-; auto].
    - destruct (build_strict impf ts) as [(ND & Hi & d & E & _)|[(ND & Hi & E)|(s' & x' & R & E)]]; rewrite E; intros H;
        [discriminate|injection H as <-; auto|injection H as <-; eauto].
  Qed.

  (** C06.  Every source makes a claim, every claim has a source, every variable has a claim; a dataset has no claims
      only if there were no triples; there are at most as many claims as triples. *)
  Theorem C06_nondegenerate b impf ts d : build b impf ts = Ok d ->
    (forall i, i < num_sources d -> exists j, j < num_claims d /\ at_ (sc d) i j = n_ofZ 1) /\
    (forall j, j < num_claims d -> exists i, i < num_sources d /\ at_ (sc d) i j = n_ofZ 1) /\
    (forall k, k < num_variables d -> exists x j w, variable_at d k = Some x /\ claim_at d j = Some (x, w)) /\
    (num_claims d = 0 <-> ts = []) /\ (num_sources d = 0 <-> ts = []) /\ (num_variables d = 0 <-> ts = []) /\
    num_claims d <= length ts /\ num_sources d <= length ts /\ num_variables d <= num_claims d.
  Proof.
    intros H. apply build_rep in H. destruct (rep_sc _ _ _ H) as (Hr & Hc & Hm).
    assert (At1 : forall i j s c, nth_error (sources ts) i = Some s -> nth_error (claims ts) j = Some c ->
              says ts s c = true -> at_ (sc d) i j = n_ofZ 1).
    { intros i j s c Hi Hj Q. destruct (Hm i j s c Hi Hj) as [H1 H2]. unfold at_. rewrite H1, Q. auto. }
    rewrite (rep_ns _ _ _ H), (rep_nc _ _ _ H), (rep_nv _ _ _ H).
    assert (L0 : forall A (l : list A), length l = 0 <-> l = []) by (intros A [|]; cbn; split; congruence).
    repeat apply conj.
    - intros i Hi. apply nth_error_Some in Hi. destruct (nth_error (sources ts) i) as [s|] eqn:Es; [|congruence].
      destruct (source_claims ts s) as (c & Hcl & Q); [now apply nth_error_In in Es|].
      destruct (In_nth_error _ _ Hcl) as [j Ej]. exists j. split; [apply nth_error_Some; congruence|eauto].
    - intros j Hj. apply nth_error_Some in Hj. destruct (nth_error (claims ts) j) as [c|] eqn:Ec; [|congruence].
      pose proof (nth_error_In _ _ Ec) as Hin. apply claims_In in Hin. destruct Hin as [s Q].
      destruct (In_nth_error _ _ (says_source _ _ _ Q)) as [i Ei]. exists i. split; [apply nth_error_Some; congruence|eauto].
    - intros k Hk. apply nth_error_Some in Hk. destruct (nth_error (variables ts) k) as [x|] eqn:Ex; [|congruence].
      destruct (variable_claims ts x) as [w Hw]; [now apply nth_error_In in Ex|].
      destruct (In_nth_error _ _ Hw) as [j Ej]. exists x, j, w. unfold variable_at.
      rewrite (rep_var _ _ _ H), inverse_ids, (claim_at_rep _ _ _ _ H). auto.
    - rewrite L0. apply claims_nil.
    - rewrite L0. apply claims_nil.
    - rewrite L0. apply sources_nil.
    - rewrite L0. apply sources_nil.
    - rewrite L0. destruct ts; cbn; congruence.
    - rewrite L0. destruct ts; cbn; congruence.
    - rewrite <- (map_length t_claim ts). apply NoDup_incl_length; [apply claims_NoDup|]. intros c Hcl.
      unfold claims in Hcl. rewrite distinct_In in Hcl. apply in_map_iff in Hcl. destruct Hcl as (t & <- & Ht).
      apply filter_In in Ht. now apply in_map.
    - rewrite <- (map_length t_src ts). apply NoDup_incl_length; [apply sources_NoDup|]. intros s Hs.
      now apply (proj1 (distinct_In _ _)).
    - rewrite <- (map_length fst (claims ts)). apply NoDup_incl_length; [apply variables_NoDup|]. intros x Hx.
      destruct (variable_claims ts x Hx) as [w Hw]. change x with (fst (x, w)). now apply in_map.
  Qed.

  (** C07.  Score vectors are reported under the right labels. *)
  Definition lookup {T} (r : dict V (dict W T)) (x : V) (w : W) : option T :=
    match dget r x with Some m => dget m w | None => None end.
  Lemma vec_as_map {A T} {EA : Eqb A} (l : list A) (v : list T) (dflt : T) : NoDup l -> length v = length l ->
    v = map (fun a => nth (pos a l) v dflt) l.
  Proof.
    intros ND E. rewrite <- (map_nth_error_seq v dflt) at 1. rewrite E. apply map_seq_nth. intros i a Ha.
    now rewrite (pos_nth_error _ _ _ ND Ha).
  Qed.
  Lemma lookup_beliefs (cs : list claim) {T} (g : claim -> T) x w : NoDup cs ->
    lookup (beliefs_of cs g) x w = if mem (x, w) cs then Some (g (x, w)) else None.
  Proof.
    intros ND. unfold lookup, beliefs_of. rewrite dget_map_keys.
    destruct (mem x (distinct (map fst cs))) eqn:M.
    - unfold scores_of. clear M. induction ND as [|[x0 w0] t Hn Ht IH]; [reflexivity|].
      cbn [filter map fst]. unfold mem. cbn [existsb]. fold (mem (x, w) t). cbn [beq Eqb_pair]. unfold pair_beq. cbn [fst snd].
      rewrite (beq_sym x x0). destruct (beq_spec x0 x) as [->|Nx]; cbn [andb orb].
      + cbn [map dget fst snd]. destruct (beq_spec w w0) as [->|Nw]; [reflexivity|]. cbn [orb]. exact IH.
      + exact IH.
    - assert (N : mem (x, w) cs = false).
      { apply mem_false. intros H. apply mem_false in M. apply M, distinct_In. change x with (fst (x, w)). now apply in_map. }
      now rewrite N.
  Qed.
  Theorem C07_beliefs_labelled b impf ts d {T} (v : list T) : build b impf ts = Ok d -> length v = num_claims d ->
    exists r, get_belief_dict d v = Some r /\
      (forall x w q, lookup r x w = Some q <-> exists j, claim_at d j = Some (x, w) /\ nth_error v j = Some q) /\
      (forall x, In x (dkeys r) <-> In x (variables ts)) /\ NoDup (dkeys r) /\
      (forall x m, dget r x = Some m -> NoDup (dkeys m) /\ (forall w, In w (dkeys m) <-> In (x, w) (claims ts))).
  Proof.
    intros H L. apply build_rep in H. rewrite (rep_nc _ _ _ H) in L.
    destruct (claims ts) as [|c0 cr] eqn:Ecl.
    { destruct v; [|discriminate]. exists []. split; [reflexivity|]. apply claims_nil in Ecl. subst ts.
      split; [|split; [|split]].
      - intros x w q. split; [discriminate|]. intros (j & Hj & Hv). destruct j; discriminate.
      - cbn. tauto.
      - constructor.
      - intros x m Hx. discriminate. }
    rewrite <- Ecl in *.
    destruct v as [|q0 v']; [rewrite Ecl in L; discriminate|]. set (v := q0 :: v') in *.
    pose proof (vec_as_map (claims ts) v q0 (claims_NoDup ts) L) as Ev.
    set (g := fun a => nth (pos a (claims ts)) v q0) in *.
    exists (beliefs_of (claims ts) g). split; [|split; [|split; [|split]]].
    - rewrite Ev. now apply belief_dict_rep with impf.
    - intros x w q. rewrite lookup_beliefs by apply claims_NoDup. setoid_rewrite (claim_at_rep _ _ _ _ H). split.
      + destruct (mem (x, w) (claims ts)) eqn:M; [|discriminate]. intros [= <-]. apply mem_In in M.
        exists (pos (x, w) (claims ts)). split; [now apply nth_error_pos|]. unfold g. apply nth_error_nth'.
        rewrite L. now apply pos_lt.
      + intros (j & Hj & Hv). pose proof (nth_error_In _ _ Hj) as Hin. apply mem_In in Hin. rewrite Hin. f_equal. unfold g.
        rewrite (pos_nth_error _ _ _ (claims_NoDup ts) Hj). now apply nth_error_nth_eq.
    - intros x. unfold beliefs_of, dkeys. rewrite map_map. cbn. rewrite map_id, distinct_In, in_map_iff. split.
      + intros (c & <- & Hc). now apply claims_var.
      + intros Hx. destruct (variable_claims ts x Hx) as [w Hw]. now exists (x, w).
    - unfold beliefs_of, dkeys. rewrite map_map. cbn. rewrite map_id. apply distinct_NoDup.
    - intros x m. unfold beliefs_of. rewrite dget_map_keys. destruct (mem x (distinct (map fst (claims ts)))); [|discriminate].
      intros [= <-]. unfold scores_of, dkeys. rewrite map_map. cbn. split.
      + apply NoDup_map_inj; [|apply NoDup_filter, claims_NoDup]. intros [a b0] [a' b'] Ha Hb. apply filter_In in Ha, Hb.
        cbn in *. destruct Ha as [_ Ha], Hb as [_ Hb]. apply beq_eq in Ha, Hb. congruence.
      + intros w. rewrite in_map_iff. split.
        * intros ([a b0] & <- & Ha). apply filter_In in Ha. destruct Ha as [Ha E]. cbn in *. apply beq_eq in E. now subst.
        * intros Hw. exists (x, w). split; [reflexivity|]. apply filter_In. cbn. split; [assumption|apply beq_refl].
  Qed.
  Theorem C07_trust_labelled b impf ts d {T} (v : list T) : build b impf ts = Ok d -> length v = num_sources d ->
    exists r, get_source_trust_dict d v = Some r /\ dkeys r = sources ts /\
      (forall s q, dget r s = Some q <-> exists i, source_at d i = Some s /\ nth_error v i = Some q).
  Proof.
    intros H L. apply build_rep in H. rewrite (rep_ns _ _ _ H) in L. destruct v as [|q0 v'].
    { assert (E : sources ts = []) by (destruct (sources ts); [reflexivity|discriminate]). exists []. split; [reflexivity|]. split; [now rewrite E|].
      intros s q. split; [discriminate|]. intros (i & _ & Hv). destruct i; discriminate. }
    set (v := q0 :: v') in *.
    pose proof (vec_as_map (sources ts) v q0 (sources_NoDup ts) L) as Ev.
    set (g := fun a => nth (pos a (sources ts)) v q0) in *.
    exists (map (fun s => (s, g s)) (sources ts)). split; [|split].
    - rewrite Ev. now apply trust_dict_rep with impf.
    - unfold dkeys. rewrite map_map. cbn. apply map_id.
    - intros s q. unfold source_at. rewrite (rep_src _ _ _ H). setoid_rewrite inverse_ids.
      assert (G : forall l, dget (map (fun s => (s, g s)) l) s = if mem s l then Some (g s) else None).
      { induction l as [|a l IH]; [reflexivity|]. cbn. unfold mem. cbn. destruct (beq_spec s a) as [->|]; [reflexivity|]. exact IH. }
      rewrite G. split.
      + destruct (mem s (sources ts)) eqn:M; [|discriminate]. intros [= <-]. apply mem_In in M.
        exists (pos s (sources ts)). split; [now apply nth_error_pos|]. unfold g. apply nth_error_nth'.
        rewrite L. now apply pos_lt.
      + intros (j & Hj & Hv). pose proof (nth_error_In _ _ Hj) as Hin. apply mem_In in Hin. rewrite Hin. f_equal. unfold g.
        rewrite (pos_nth_error _ _ _ (sources_NoDup ts) Hj). now apply nth_error_nth_eq.
  Qed.
End Data.

(** Non-vacuity: a dataset with a repeated pair, a disagreement and implications. *)
Module Examples.
  Import ListNotations.
  Definition ts1 : list (nat * nat * nat) :=
    [(1, 10, 100); (2, 10, 200); (1, 20, 100); (1, 10, 300); (3, 20, 100)].
  Definition impf1 : nat -> nat -> nat -> option XR := fun _ w w' => if Nat.ltb w w' then Some (Fin (1/2)) else None.
  Example ts1_claims : claims ts1 = [(10, 100); (10, 200); (20, 100)]. Proof. reflexivity. Qed.
  Example ts1_sources : sources ts1 = [1; 2; 3]. Proof. reflexivity. Qed.
  Example ts1_strict : first_repeat ts1 1 10.
  Proof.
    exists [(1, 10, 100); (2, 10, 200); (1, 20, 100)], 300, [(3, 20, 100)]. split; [reflexivity|]. split; [|cbn; auto].
    cbn. repeat (constructor; [cbn; intuition congruence|]). constructor.
  Qed.
  Example ts1_builds : exists d, build true (Some impf1) ts1 = Ok d /\ num_claims d = 3.
  Proof.
    destruct (build_allow (Some impf1) ts1) as [(_ & d & E & R)|(N & _)].
    - exists d. split; [exact E|]. now rewrite (rep_nc _ _ _ R).
    - exfalso. apply N. intros [x w] [x' w'] q _ _ H. unfold imp_val in H. cbn [fst snd] in H.
      destruct (beq x x' && negb (beq (x, w) (x', w'))); [|discriminate]. unfold impf1 in H.
      destruct (Nat.ltb w w'); [|discriminate]. injection H as <-. unfold imp_in_range. cbn.
      rewrite !rltb_false; [reflexivity|lra|lra].
  Qed.
End Examples.
