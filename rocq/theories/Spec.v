(** What a list of (source, variable, value) triples means, at the level of labels.  No ids, no matrices. *)
From Verif Require Import Base.

Section DataSpec.
  Context {S V W : Type} {ES : Eqb S} {EV : Eqb V} {EW : Eqb W}.
  Notation triple := (S * V * W)%type.
  Definition t_src (t : triple) : S := fst (fst t).
  Definition t_var (t : triple) : V := snd (fst t).
  Definition t_val (t : triple) : W := snd t.
  (** a claim "variable x takes value v" *)
  Notation claim := (V * W)%type.
  Definition t_claim (t : triple) : claim := (t_var t, t_val t).

  (** The value source [s] claims for [x]: the first one listed, if any. *)
  Definition first_claim (ts : list triple) (s : S) (x : V) : option W :=
    option_map t_val (find (fun t => beq (t_src t) s && beq (t_var t) x) ts).
  (** source [s] makes claim [c] *)
  Definition says (ts : list triple) (s : S) (c : claim) : bool := beq (first_claim ts s (fst c)) (Some (snd c)).

  (** sources, variables and claims, in the order in which they first appear *)
  Definition sources (ts : list triple) : list S := distinct (map t_src ts).
  Definition variables (ts : list triple) : list V := distinct (map t_var ts).
  Definition values (ts : list triple) : list W := distinct (map t_val ts).
  Definition claims (ts : list triple) : list claim :=
    distinct (map t_claim (filter (fun t => says ts (t_src t) (t_claim t)) ts)).

  (** the (source, variable) pairs, with repetitions *)
  Definition sv_pairs (ts : list triple) : list (S * V) := map fst ts.

  (** sources making a claim; claims made by a source; values claimed for a variable *)
  Definition supporters (ts : list triple) (c : claim) : list S := filter (fun s => says ts s c) (sources ts).
  Definition claims_of (ts : list triple) (s : S) : list claim := filter (says ts s) (claims ts).
  Definition rivals (ts : list triple) (c : claim) : list claim :=
    filter (fun c' => beq (fst c) (fst c')) (claims ts).
  Definition values_of (ts : list triple) (x : V) : list W :=
    map snd (filter (fun c => beq (fst c) x) (claims ts)).

  (** ** Facts *)
  Lemma first_claim_app l m s x :
    first_claim (l ++ m) s x = match first_claim l s x with Some v => Some v | None => first_claim m s x end.
  Proof.
    unfold first_claim. induction l as [|t l IH]; cbn; [reflexivity|].
    destruct (beq (t_src t) s && beq (t_var t) x); [reflexivity|exact IH].
  Qed.
  Lemma first_claim_None ts s x : first_claim ts s x = None <-> ~ In (s, x) (sv_pairs ts).
  Proof.
    unfold first_claim, sv_pairs. induction ts as [|[[s' x'] v] t IH]; cbn; [tauto|].
    unfold t_src, t_var; cbn. destruct (beq_spec s' s) as [->|Ns]; cbn.
    - destruct (beq_spec x' x) as [->|Nx]; cbn; [split; [discriminate|tauto]|].
      rewrite IH. intuition congruence.
    - rewrite IH. intuition congruence.
  Qed.
  Lemma first_claim_In ts s x v : first_claim ts s x = Some v -> In (s, x, v) ts.
  Proof.
    unfold first_claim. destruct (find _ ts) as [[[s' x'] v']|] eqn:E; cbn; [|discriminate].
    intros [= <-]. apply find_some in E. destruct E as [Hin Hb]. apply andb_true_iff in Hb.
    cbn in Hb. destruct Hb as [H1 H2]. apply beq_eq in H1, H2. cbn in H1, H2. now subst.
  Qed.
  Lemma first_claim_NoDup ts s x v : NoDup (sv_pairs ts) -> (first_claim ts s x = Some v <-> In (s, x, v) ts).
  Proof.
    intros ND. split; [apply first_claim_In|]. intros Hin.
    destruct (first_claim ts s x) as [v'|] eqn:E.
    - apply first_claim_In in E. f_equal.
      assert (H : forall a b c : triple, NoDup (sv_pairs ts) -> In a ts -> In b ts -> fst a = fst b -> a = b).
      { clear. intros a b _ ND Ha Hb E. unfold sv_pairs in ND. induction ts as [|t l IH]; [destruct Ha|].
        cbn in ND. inversion ND as [|? ? Hn Ht]; subst. destruct Ha as [->|Ha], Hb as [->|Hb]; auto.
        - exfalso. apply Hn. rewrite E. now apply in_map.
        - exfalso. apply Hn. rewrite <- E. now apply in_map. }
      specialize (H _ _ (s, x, v) ND Hin E eq_refl). congruence.
    - apply first_claim_None in E. exfalso. apply E. apply in_map_iff. now exists (s, x, v).
  Qed.
  Lemma says_true ts s c : says ts s c = true <-> first_claim ts s (fst c) = Some (snd c).
  Proof. unfold says. destruct (beq_spec (first_claim ts s (fst c)) (Some (snd c))); split; congruence. Qed.
  Lemma sources_In ts s : In s (sources ts) <-> exists x v, In (s, x, v) ts.
  Proof.
    unfold sources. rewrite distinct_In, in_map_iff. split.
    - intros ([[s' x] v] & <- & H). now exists x, v.
    - intros (x & v & H). now exists (s, x, v).
  Qed.
  Lemma variables_In ts x : In x (variables ts) <-> exists s v, In (s, x, v) ts.
  Proof.
    unfold variables. rewrite distinct_In, in_map_iff. split.
    - intros ([[s x'] v] & <- & H). now exists s, v.
    - intros (s & v & H). now exists (s, x, v).
  Qed.
  Lemma values_In ts w : In w (values ts) <-> exists s x, In (s, x, w) ts.
  Proof.
    unfold values. rewrite distinct_In, in_map_iff. split.
    - intros ([[s x] v'] & <- & H). now exists s, x.
    - intros (s & v & H). now exists (s, v, w).
  Qed.
  Lemma says_source ts s c : says ts s c = true -> In s (sources ts).
  Proof. rewrite says_true. intros H. apply first_claim_In in H. apply sources_In. eauto. Qed.
  Lemma says_var ts s c : says ts s c = true -> In (fst c) (variables ts).
  Proof. rewrite says_true. intros H. apply first_claim_In in H. apply variables_In. eauto. Qed.
  Lemma says_val ts s c : says ts s c = true -> In (snd c) (values ts).
  Proof. rewrite says_true. intros H. apply first_claim_In in H. apply values_In. eauto. Qed.
  (** a claim is listed iff some source makes it *)
  Lemma claims_In ts c : In c (claims ts) <-> exists s, says ts s c = true.
  Proof.
    unfold claims. rewrite distinct_In, in_map_iff. split.
    - intros (t & <- & H). apply filter_In in H. exists (t_src t). apply H.
    - intros (s & H). pose proof H as H'. apply says_true, first_claim_In in H. exists (s, fst c, snd c).
      split; [now destruct c|]. apply filter_In. split; [exact H|]. now destruct c.
  Qed.
  Lemma sources_NoDup ts : NoDup (sources ts). Proof. apply distinct_NoDup. Qed.
  Lemma variables_NoDup ts : NoDup (variables ts). Proof. apply distinct_NoDup. Qed.
  Lemma values_NoDup ts : NoDup (values ts). Proof. apply distinct_NoDup. Qed.
  Lemma claims_NoDup ts : NoDup (claims ts). Proof. apply distinct_NoDup. Qed.
  Lemma claims_var ts c : In c (claims ts) -> In (fst c) (variables ts).
  Proof. rewrite claims_In. intros [s H]. now apply says_var in H. Qed.
  Lemma claims_val ts c : In c (claims ts) -> In (snd c) (values ts).
  Proof. rewrite claims_In. intros [s H]. now apply says_val in H. Qed.
  Lemma source_claims ts s : In s (sources ts) -> exists c, In c (claims ts) /\ says ts s c = true.
  Proof.
    rewrite sources_In. intros (x & v & H). destruct (first_claim ts s x) as [v'|] eqn:E.
    - exists (x, v'). rewrite claims_In. assert (says ts s (x, v') = true) by (now apply says_true). eauto.
    - apply first_claim_None in E. exfalso. apply E. apply in_map_iff. now exists (s, x, v).
  Qed.
  Lemma variable_claims ts x : In x (variables ts) -> exists v, In (x, v) (claims ts).
  Proof.
    rewrite variables_In. intros (s & v & H). destruct (first_claim ts s x) as [v'|] eqn:E.
    - exists v'. rewrite claims_In. exists s. now apply says_true.
    - apply first_claim_None in E. exfalso. apply E. apply in_map_iff. now exists (s, x, v).
  Qed.
  Lemma says_same_var ts s c c' : says ts s c = true -> says ts s c' = true -> fst c = fst c' -> c = c'.
  Proof. rewrite !says_true. destruct c, c'; cbn. intros H1 H2 ->. congruence. Qed.
  Lemma claims_nil ts : claims ts = [] <-> ts = [].
  Proof.
    split; [|intros ->; reflexivity]. intros H. destruct ts as [|t0 t]; [reflexivity|exfalso].
    destruct (source_claims (t0 :: t) (t_src t0)) as (c & Hc & _).
    - apply distinct_In. now left.
    - rewrite H in Hc. destruct Hc.
  Qed.
  Lemma sources_nil ts : sources ts = [] <-> ts = [].
  Proof. destruct ts; cbn; split; congruence. Qed.
End DataSpec.
