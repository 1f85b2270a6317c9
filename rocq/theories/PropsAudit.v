(** Additions to the theorems about IDMapping and Dataset: C01 (histories of one IDMapping), C02 (the dataset of the first triples), C06 (at most one
    claim per variable). *)
From Coq Require Import Reals.
From Verif Require Import Base Num Sparse Spec Dataset DatasetProofs DatasetRep PropsData.
Local Close Scope R_scope.

(** ** C01: any sequence of calls get_id(label, insert) on one IDMapping *)
Section IdHistory.
  Context {L : Type} {EL : Eqb L}.
  (** the mapping after a call: with insert=False it stays as it is, by the type of [get_id_noinsert] *)
  Definition call (m : idmap L) (c : L * bool) : idmap L :=
    match c with (l, true) => match get_id m l with Some (m', _) => m' | None => m end | (l, false) => m end.
  Definition after_calls (cs : list (L * bool)) : idmap L := fold_left call cs [].
  (** the labels inserted, in order of first insertion *)
  Definition inserted (cs : list (L * bool)) : list L := distinct (map fst (filter snd cs)).
  Lemma after_calls_ids cs : after_calls cs = ids (inserted cs).
  Proof.
    unfold after_calls, inserted. induction cs as [|[l b] cs IH] using rev_ind; [reflexivity|].
    rewrite fold_left_app, filter_app, map_app. cbn [fold_left filter snd]. rewrite IH. destruct b; cbn [map fst call].
    - rewrite get_id_ids, distinct_snoc. unfold grow.
      assert (M : mem l (distinct (map fst (filter snd cs))) = mem l (map fst (filter snd cs))).
      { destruct (mem l (map fst (filter snd cs))) eqn:E; [apply mem_In, distinct_In; now apply mem_In|apply mem_false; rewrite distinct_In; now apply mem_false]. }
      rewrite M. reflexivity.
    - rewrite app_nil_r. reflexivity.
  Qed.
  Theorem C01_idmapping cs : let m := after_calls cs in
    (forall i, inverse m i = nth_error (inserted cs) i) /\ length m = length (inserted cs) /\
    (forall l i, dget m l = Some i <-> inverse m i = Some l) /\
    (forall l, In l (inserted cs) -> exists i, get_id m l = Some (m, i) /\ get_id_noinsert m l = Some i /\ inverse m i = Some l) /\
    (forall l, ~ In l (inserted cs) -> get_id_noinsert m l = None /\ exists m', get_id m l = Some (m', length m) /\ dget m' l = Some (length m) /\ inverse m' (length m) = Some l /\
       (forall l' i, l' <> l -> dget m' l' = Some i <-> dget m l' = Some i) /\ (forall i, i <> length m -> inverse m' i = inverse m i)).
  Proof.
    intros m. unfold m. rewrite after_calls_ids. pose proof (distinct_NoDup (map fst (filter snd cs))) as ND. fold (inserted cs) in ND. set (ls := inserted cs) in *. clearbody ls.
    assert (Iff : forall k (l : L) i, NoDup k -> dget (ids k) l = Some i <-> inverse (ids k) i = Some l) by (intros; rewrite inverse_ids; now apply get_id_ids_iff).
    split; [intros; apply inverse_ids|]. split; [apply ids_length|]. split; [intros; now apply Iff|]. split.
    - intros l Hl. exists (pos l ls). rewrite get_id_ids. unfold grow, get_id_noinsert. rewrite (proj2 (mem_In l ls) Hl), dget_ids, (proj2 (mem_In l ls) Hl), inverse_ids. split; [reflexivity|]. split; [reflexivity|]. now apply nth_error_pos.
    - intros l Hl. unfold get_id_noinsert. rewrite dget_ids, (proj2 (mem_false l ls) Hl). split; [reflexivity|]. exists (ids (ls ++ [l])). rewrite get_id_ids, ids_length. unfold grow. rewrite (proj2 (mem_false l ls) Hl).
      assert (ND' : NoDup (ls ++ [l])) by now apply NoDup_snoc.
      assert (E : nth_error (ls ++ [l]) (length ls) = Some l) by (rewrite nth_error_app2, Nat.sub_diag by lia; reflexivity).
      split; [f_equal; f_equal; rewrite pos_app_not by exact Hl; cbn; rewrite beq_refl; lia|]. split; [apply Iff; [exact ND'|]; rewrite inverse_ids; exact E|]. split; [rewrite inverse_ids; exact E|]. split.
      + intros l' i N. rewrite !Iff by assumption. rewrite !inverse_ids. destruct (Nat.lt_ge_cases i (length ls)) as [H|H]; [rewrite nth_error_app1 by exact H; reflexivity|].
        rewrite nth_error_app2 by exact H. rewrite (proj2 (nth_error_None ls i) H). split; [|discriminate]. destruct (i - length ls) as [|q]; cbn; [intros [= E']; congruence|now destruct q].
      + intros i N. rewrite !inverse_ids. destruct (Nat.lt_ge_cases i (length ls)) as [H|H]; [now rewrite nth_error_app1|]. rewrite nth_error_app2 by exact H. rewrite (proj2 (nth_error_None ls i) H).
        destruct (i - length ls) as [|q] eqn:Q; [lia|]. cbn. now destruct q.
  Qed.
End IdHistory.

Section First.
  Context {S V W : Type} {ES : Eqb S} {EV : Eqb V} {EW : Eqb W} {F : Num} {FOK : NumOK F}.
  Notation triple := (S * V * W)%type.
  Implicit Types (ts : list triple) (d : dataset S V W F).

  (** C06: a source makes at most one claim about a variable (1 and 0 differ for the reals and for doubles) *)
  Theorem C06_one_per_variable b impf ts d i j j' x w w' : (n_ofZ 1 : F) <> n_ofZ 0 -> build b impf ts = Ok d -> claim_at d j = Some (x, w) -> claim_at d j' = Some (x, w') -> i < num_sources d ->
    at_ (sc d) i j = n_ofZ 1 -> at_ (sc d) i j' = n_ofZ 1 -> j = j'.
  Proof.
    intros N10 Hb Hj Hj' Hi H1 H2. pose proof (C03_sc_exact b impf ts d Hb) as (_ & _ & Q). pose proof (C01_ids_dense_first_come b impf ts d Hb) as (_ & _ & Nc & _ & _ & _ & _ & Ca & Ci).
    assert (Lt : forall k c, claim_at d k = Some c -> k < num_claims d) by (intros k c Hk; rewrite Ca in Hk; rewrite Nc; apply nth_error_Some; congruence).
    destruct (Q i j Hi (Lt _ _ Hj)) as (s & x1 & w1 & Es & E1 & A1 & B1). destruct (Q i j' Hi (Lt _ _ Hj')) as (s2 & x2 & w2 & Es2 & E2 & A2 & B2).
    assert (s2 = s) by congruence. subst s2. rewrite Hj in E1. injection E1 as <- <-. rewrite Hj' in E2. injection E2 as <- <-.
    assert (Dec : forall u, first_claim ts s x = Some u \/ first_claim ts s x <> Some u) by (intros u; destruct (beq_spec (first_claim ts s x) (Some u)); auto).
    destruct (Dec w) as [G|G]; [|apply B1 in G; congruence]. destruct (Dec w') as [G'|G']; [|apply B2 in G'; congruence].
    assert (w' = w) by congruence. subst w'. apply Ci in Hj. apply Ci in Hj'. congruence.
  Qed.

  (** the triples without those whose (source, variable) pair was listed before *)
  Fixpoint first_triples (seen : list (S * V)) ts : list triple :=
    match ts with [] => [] | t :: r => if mem (fst t) seen then first_triples seen r else t :: first_triples (fst t :: seen) r end.

  Lemma first_triples_snoc ts t : forall seen, first_triples seen (ts ++ [t]) = first_triples seen ts ++ (if mem (fst t) (seen ++ sv_pairs ts) then [] else [t]).
  Proof.
    induction ts as [|u ts IH]; intros seen; cbn [app first_triples sv_pairs map].
    - rewrite app_nil_r. now destruct (mem (fst t) seen).
    - destruct (mem (fst u) seen) eqn:Hu; rewrite IH; cbn [app]; f_equal.
      + replace (mem (fst t) (seen ++ fst u :: sv_pairs ts)) with (mem (fst t) (seen ++ sv_pairs ts)); [reflexivity|].
        rewrite !mem_app. unfold mem at 4. cbn [existsb]. fold (mem (fst t) (sv_pairs ts)). destruct (beq_spec (fst t) (fst u)) as [->|]; [|reflexivity]. rewrite Hu. reflexivity.
      + replace (mem (fst t) (seen ++ fst u :: sv_pairs ts)) with (mem (fst t) ((fst u :: seen) ++ sv_pairs ts)); [reflexivity|].
        rewrite !mem_app. unfold mem at 1 4. cbn [existsb]. fold (mem (fst t) (sv_pairs ts)). fold (mem (fst t) seen). destruct (beq (fst t) (fst u)); [now rewrite orb_true_r|]. reflexivity.
  Qed.
  Lemma first_facts ts : let ts' := first_triples [] ts in
    sources ts' = sources ts /\ variables ts' = variables ts /\ claims ts' = claims ts /\ (forall s x, first_claim ts' s x = first_claim ts s x) /\ NoDup (sv_pairs ts').
  Proof.
    cbv zeta. induction ts as [|t ts IH] using rev_ind; [repeat split; constructor|]. destruct IH as (I1 & I2 & I3 & I4 & I5). rewrite first_triples_snoc. cbn [app].
    destruct t as [[s0 x0] w0]. assert (Dec := first_claim_None ts s0 x0). cbn [fst]. destruct (mem (s0, x0) (sv_pairs ts)) eqn:M.
    - rewrite app_nil_r. apply mem_In in M. assert (Sm : first_claim ts s0 x0 <> None) by tauto.
      destruct (first_claim ts s0 x0) as [v|] eqn:Ev; [|congruence]. clear Sm Dec. pose proof (first_claim_In _ _ _ _ Ev) as Hin.
      rewrite sources_snoc, variables_snoc, claims_snoc. unfold t_src, t_var. cbn [fst snd]. rewrite Ev. unfold grow.
      assert (mem s0 (sources ts) = true) as -> by (apply mem_In, sources_In; eauto). assert (mem x0 (variables ts) = true) as -> by (apply mem_In, variables_In; eauto).
      repeat split; try assumption. intros s x. rewrite first_claim_app, I4. destruct (first_claim ts s x) eqn:Es; [reflexivity|]. unfold first_claim. cbn. unfold t_src, t_var. cbn.
      destruct (beq_spec s0 s) as [->|]; [|reflexivity]. destruct (beq_spec x0 x) as [->|]; [|reflexivity]. congruence.
    - apply mem_false in M. assert (Sm : first_claim ts s0 x0 = None) by tauto.
      rewrite !sources_snoc, !variables_snoc, !claims_snoc, I1, I2, I3, I4. repeat split.
      + intros s x. rewrite !first_claim_app, I4. reflexivity.
      + unfold sv_pairs in *. rewrite map_app. cbn [map fst]. apply NoDup_snoc; [exact I5|]. change (map fst (first_triples [] ts)) with (sv_pairs (first_triples [] ts)).
        rewrite <- first_claim_None, I4. exact Sm.
  Qed.
  Lemma at_mrep {A B} (M : mat F) (R : list A) (C : list B) rel ent i j : mrep M R C rel ent -> i < length R -> j < length C ->
    at_ M i j = match nth_error R i, nth_error C j with Some a, Some b => if rel a b then ent a b else n_ofZ 0 | _, _ => n_ofZ 0 end.
  Proof.
    intros (_ & _ & H) Hi Hj. destruct (nth_error R i) as [a|] eqn:Ea; [|apply nth_error_None in Ea; lia]. destruct (nth_error C j) as [b|] eqn:Eb; [|apply nth_error_None in Eb; lia].
    destruct (H i j a b Ea Eb) as [H1 H2]. unfold at_. rewrite H1. destruct (rel a b); auto.
  Qed.
  Lemma says_first ts s c : says (first_triples [] ts) s c = says ts s c.
  Proof. unfold says. destruct (first_facts ts) as (_ & _ & _ & Q & _). now rewrite Q. Qed.

  (** C02: with allow_multiple the same dataset is built as from the first triples alone, which the strict mode accepts *)
  Theorem C02_same_as_first (impf : option (V -> W -> W -> option F)) ts :
    match build true impf ts, build false impf (first_triples [] ts) with
    | Ok d, Ok d' => num_sources d = num_sources d' /\ num_variables d = num_variables d' /\ num_claims d = num_claims d' /\
        (forall i, source_at d i = source_at d' i) /\ (forall i, variable_at d i = variable_at d' i) /\ (forall j, claim_at d j = claim_at d' j) /\
        (forall i j, i < num_sources d -> j < num_claims d -> at_ (sc d) i j = at_ (sc d') i j) /\
        (forall i j, i < num_claims d -> j < num_claims d -> at_ (mut_ex d) i j = at_ (mut_ex d') i j /\ at_ (imp d) i j = at_ (imp d') i j)
    | Err e, Err e' => e = e'
    | _, _ => False
    end.
  Proof.
    destruct (first_facts ts) as (I1 & I2 & I3 & I4 & I5).
    destruct (build_allow impf ts) as [(Hok & d & E & R)|(Hno & E)]; rewrite E; (destruct (build_strict impf (first_triples [] ts)) as [(_ & Hok' & d' & E' & R')|[(_ & Hno' & E')|(s & x & Rp & _)]]; [rewrite E'|rewrite E'|exfalso; now apply first_repeat_not_NoDup in Rp]).
    - pose proof (C01_ids_dense_first_come _ _ _ _ E) as (N1 & N2 & N3 & A1 & _ & A2 & _ & A3 & _). pose proof (C01_ids_dense_first_come _ _ _ _ E') as (N1' & N2' & N3' & A1' & _ & A2' & _ & A3' & _).
      rewrite I1 in N1', A1'. rewrite I2 in N2', A2'. rewrite I3 in N3', A3'.
      split; [congruence|]. split; [congruence|]. split; [congruence|]. split; [intros i; now rewrite A1, A1'|]. split; [intros i; now rewrite A2, A2'|]. split; [intros i; now rewrite A3, A3'|]. split; [|intros i j Hi Hj; split].
      + intros i j Hi Hj. rewrite (rep_ns _ _ _ R) in Hi. rewrite (rep_nc _ _ _ R) in Hj. pose proof (rep_sc _ _ _ R) as M. pose proof (rep_sc _ _ _ R') as M'. rewrite I1, I3 in M'.
        rewrite (at_mrep _ _ _ _ _ i j M Hi Hj), (at_mrep _ _ _ _ _ i j M' Hi Hj). destruct (nth_error (sources ts) i), (nth_error (claims ts) j); try reflexivity. now rewrite says_first.
      +  rewrite (rep_nc _ _ _ R) in *. pose proof (rep_mut _ _ _ R) as M. pose proof (rep_mut _ _ _ R') as M'. rewrite I3 in M'.
        rewrite (at_mrep _ _ _ _ _ i j M), (at_mrep _ _ _ _ _ i j M') by assumption. reflexivity.
      + rewrite (rep_nc _ _ _ R) in *. pose proof (rep_imp _ _ _ R) as M. pose proof (rep_imp _ _ _ R') as M'. rewrite I3 in M'.
        rewrite (at_mrep _ _ _ _ _ i j M), (at_mrep _ _ _ _ _ i j M') by assumption. reflexivity.
    - exfalso. apply Hno'. unfold imp_all_ok in *. now rewrite I3.
    - exfalso. apply Hno. unfold imp_all_ok in *. rewrite I3 in Hok'. exact Hok'.
    - reflexivity.
  Qed.
End First.

Module AuditExamples.
  (** a history with repetitions and look-ups without insertion *)
  Example history : after_calls [(5, true); (7, false); (9, true); (5, true); (7, true)] = [(5, 0); (9, 1); (7, 2)]. Proof. reflexivity. Qed.
  (** source 1 lists variable 2 twice: the second triple is dropped; value 4 is not a claim *)
  Example dropped : first_triples [] [(1, 2, 3); (1, 2, 4); (2, 2, 3); (1, 3, 3)] = [(1, 2, 3); (2, 2, 3); (1, 3, 3)]. Proof. reflexivity. Qed.
  Example ones_differ : (n_ofZ 1 : XR) <> n_ofZ 0. Proof. intros H. assert (Q : forall a b : R, Fin a = Fin b -> a = b) by congruence. apply Q in H. now apply R1_neq_R0 in H. Qed.
End AuditExamples.
