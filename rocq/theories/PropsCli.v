(** C49: the run command of the command line client.  C56: its synth command.  C57: its graph command. *)
From Coq Require Import NArith String Sorted Reals Lra.
From Verif Require Import Base Num Sparse Spec Dataset DatasetProofs DatasetRep Iterators Algorithms Driver Rounds Results PropsResult PyStr Regex Matrix Supervised Client PropsClient Graph GraphRep PropsRun PropsOutput PropsData PropsMatrix PropsSynth PropsGraph PropsLayout Front FrontRep.

(** ** Specification of warnings: the names, sorted, of the given parameters that the class does not take *)
Section Warnings.
  Context {F : Num}.
  Definition unused (c : cls) (params : dict pystr (pvalue F)) (names : list pystr) : Prop :=
    StronglySorted (fun a b => str_ltb a b = true) names /\ forall k, In k names <-> dget params k <> None /\ ~ In k (documented c).
  Definition warning (c : cls) (names : list pystr) : pystr :=
    lit_str "Ignored parameters for '" ++ class_name c ++ lit_str "': " ++ join (lit_str ", ") names.
  (** one warning for each class, in order, that has unused parameters *)
  Inductive warnings_for (params : dict pystr (pvalue F)) : list cls -> list pystr -> Prop :=
  | no_class : warnings_for params [] []
  | all_used c cs ws : unused c params [] -> warnings_for params cs ws -> warnings_for params (c :: cs) ws
  | some_unused c cs ws names : unused c params names -> names <> [] -> warnings_for params cs ws -> warnings_for params (c :: cs) (warning c names :: ws).

  Variable ord : list pystr -> list pystr.
  Hypothesis Ord : forall l, Permutation l (ord l).
  Lemma ignored_unused c params : client_class c -> NoDup (dkeys params) ->
    let ignored := snd (get_algorithm_params ord c params) in unused c params (sort_with str_ltb ignored) /\ (ignored = [] <-> sort_with str_ltb ignored = []).
  Proof.
    intros Hc ND. pose proof (C45_split ord Ord c params Hc ND) as Q. destruct (get_algorithm_params ord c params) as [kept ignored]. cbn [snd]. destruct Q as (_ & Hi & _ & NDi & _).
    pose proof (sort_perm str_ltb ignored) as P. split; [split|].
    - pose proof (sort_sorted str_ltb ignored str_ltb_total) as So. assert (ND' : NoDup (sort_with str_ltb ignored)) by (eapply Permutation_NoDup; [apply Permutation_sym, P|exact NDi]).
      clear P. induction So as [|x l So IH Hx]; [constructor|]. inversion ND' as [|? ? Nx NDl]; subst. constructor; [auto|]. rewrite Forall_forall in Hx |- *. intros y Hy. specialize (Hx y Hy). destruct str_ltb_total as (_ & _ & To).
      destruct (To x y) as [H|[->|H]]; [exact H|contradiction|congruence].
    - intros k. rewrite <- Hi. split; intros H; [eapply Permutation_in; [exact P|exact H]|eapply Permutation_in; [apply Permutation_sym, P|exact H]].
    - split; [intros ->; reflexivity|]. intros E. rewrite E in P. now apply Permutation_nil in P.
  Qed.
End Warnings.

Section Run.
  Context {C W : Type} {EW : Eqb W} {F : Num} {FOK : NumOK F}.
  Variable parse : pystr -> option (option C).
  Variable label : C -> W.
  Variable ord : list pystr -> list pystr.
  Hypothesis Ord : forall l, Permutation l (ord l).
  Variable ltw : W -> W -> bool.
  Variable rnd : nat -> nat.
  Hypothesis irrefl : forall x : F, n_ltb x x = false.
  Variable pfloat : pystr -> option F.
  Variable decimal : pychar -> option N.
  Hypothesis DEC : decimal_ok decimal.
  Notation params := (dict pystr (pvalue F)).
  Notation data := (dataset nat nat W F).
  Notation result := (result nat nat W F).
  Notation entry := (dict field (outval nat nat W F)).

  (** ** Specification *)
  (** what argparse gives: classes from labels, parameters from strings *)
  Definition proper_args (args : run_args (F:=F)) : Prop :=
    (forall c, In c (ra_classes args) -> client_class c) /\ ra_fields args <> [] /\
    exists strs, Forall2 (fun s it => algorithm_parameter pfloat decimal s = Ok it) strs (match ra_params args with Some l => l | None => [] end).
  (** the parameters: a later one overrides an earlier one of the same name *)
  Definition given (args : run_args (F:=F)) : params := dict_of (match ra_params args with Some l => l | None => [] end).
  (** the result of a run of a new object of class [c], made for these parameters alone *)
  Definition alone (clock : nat -> F) (fuel : nat) (ps : params) (d : data) (c : cls) (r : res aerr result) : Prop :=
    exists o, requested c ps = Some o /\ r = fst (crun clock fuel o d).
  Definition asked (l : option (list Z)) (k : nat) : bool := match l with Some zs => mem (Z.of_nat k) zs | None => true end.
  (** [r'] is [r] with only the sources and variables that were asked for *)
  Definition restricted (args : run_args (F:=F)) (r r' : result) : Prop :=
    (forall s, dget (r_trust r') s = if asked (ra_sources args) s then dget (r_trust r) s else None) /\
    (forall x, dget (r_belief r') x = if asked (ra_variables args) x then dget (r_belief r) x else None) /\
    NoDup (dkeys (r_trust r')) /\ NoDup (dkeys (r_belief r')) /\ r_time r' = r_time r /\ r_iterations r' = r_iterations r.
  (** an entry of the output: exactly the fields that were asked for, about the restricted result *)
  Definition field_value (sup : option (dict nat W)) (r' : result) (f : field) (v : outval nat nat W F) : Prop :=
    match f with
    | FTime => v = VTime (r_time r')
    | FIterations => v = VIterations (r_iterations r')
    | FTrust => v = VTrust (r_trust r')
    | FBelief => v = VBelief (r_belief r')
    | FTrustStats => v = VTrustStats (fst (get_trust_stats r')) (snd (get_trust_stats r'))
    | FBeliefStats => v = VBeliefStats (get_belief_stats r')
    | FAccuracy => exists values, sup = Some values /\ v = VAccuracy (match get_accuracy rnd values r' with Ok a => Some a | Err _ => None end)
    | FMostBelieved => exists m, v = VMostBelieved m /\ forall x,
        match get_most_believed_values r' x with
        | Ok l => exists l', dget m x = Some l' /\ Permutation l' l /\ (strict_total ltw -> StronglySorted (fun a b => ltw b a = false) l')
        | Err _ => dget m x = None
        end
    end.
  Definition shows (args : run_args (F:=F)) (sup : option (dict nat W)) (r' : result) (e : entry) : Prop :=
    forall f, match dget e f with
              | Some v => In f (ra_fields args) /\ field_value sup r' f v
              | None => ~ In f (ra_fields args) \/ f = FAccuracy /\ sup = None
              end.
  (** the [i]-th algorithm's entry: it ran alone, with its own iterator *)
  Definition entry_of (clocks : nat -> nat -> F) fuel args (d : data) sup (i : nat) (c : cls) (e : entry) : Prop :=
    exists r r', alone (clocks i) fuel (given args) d c (Ok r) /\ restricted args r r' /\ shows args sup r' e /\ get_output_obj ltw rnd r' (Some (ra_fields args)) sup = Ok e.
  Definition outcome_spec (clocks : nat -> nat -> F) fuel args (d : data) sup (o : outcome) : Prop :=
    let cs := ra_classes args in
    match o with
    | Printed out => NoDup (dkeys out) /\
        (* an entry for each label of a requested class, and no other *)
        (forall l, In l (dkeys out) <-> exists c, In c cs /\ In (l, c) label_table) /\
        (* made by its last occurrence *)
        (forall l e, dget out l = Some e -> exists i c, nth_error cs i = Some c /\ In (l, c) label_table /\ (forall j, i < j -> nth_error cs j <> Some c) /\ entry_of clocks fuel args d sup i c e)
    | Crashed (CrashAlg e) => exists i c, nth_error cs i = Some c /\ alone (clocks i) fuel (given args) d c (Err e) /\
        forall j c', j < i -> nth_error cs j = Some c' -> exists r, alone (clocks j) fuel (given args) d c' (Ok r)
    | _ => False
    end.

  (** ** Proofs *)
  Lemma make_objects_ok (ps : params) classes : (forall c, In c classes -> client_class c) -> NoDup (dkeys ps) -> well_typed ps ->
    exists objs ws, make_objects (W:=W) ord ps classes = Ok (objs, ws) /\ Forall2 (fun c co => fst co = c /\ requested c ps = Some (snd co)) classes objs /\ warnings_for ps classes ws.
  Proof.
    intros Hc ND Ty. induction classes as [|c cs IH]; cbn [make_objects]; [exists [], []; repeat constructor|].
    destruct IH as (objs & ws & E & Ho & Hw); [intros c' H; apply Hc; now right|]. assert (Cc : client_class c) by (apply Hc; now left).
    destruct (C45_constructs (S:=nat) (V:=nat) (W:=W) ord Ord c ps Cc ND Ty) as (o & Er & Eo). pose proof (ignored_unused ord Ord c ps Cc ND) as [U1 U2].
    destruct (get_algorithm_params ord c ps) as [kept ignored] eqn:Ek. cbn [fst snd] in *. rewrite Eo. cbn [bind]. rewrite E. cbn [bind]. eexists _, _. split; [reflexivity|]. split; [constructor; auto|].
    destruct ignored as [|k0 ig] eqn:Ei; [apply all_used; assumption|]. rewrite <- Ei in *. change (ignored_message c ignored) with (warning c (sort_with str_ltb ignored)). apply some_unused; [exact U1|rewrite <- U2, Ei; discriminate|exact Hw].
  Qed.
  Lemma label_list_mem zs k : mem k (label_list zs) = mem (Z.of_nat k) zs.
  Proof.
    apply eq_true_iff_eq. rewrite !mem_In. unfold label_list. rewrite in_flat_map. split.
    - intros (z & Hz & H). destruct (Z.ltb_spec z 0); [destruct H|]. destruct H as [<-|[]]. now rewrite Z2Nat.id.
    - intros H. exists (Z.of_nat k). split; [exact H|]. destruct (Z.ltb_spec (Z.of_nat k) 0); [lia|]. rewrite Nat2Z.id. now left.
  Qed.
  Lemma filter_restricted args (ts : list (nat * nat * W)) r : full_scores ts r -> restricted args r (result_filter r (option_map label_list (ra_sources args)) (option_map label_list (ra_variables args))).
  Proof.
    intros (t & b & Et & Eb). unfold restricted, result_filter. cbn [r_trust r_belief r_time r_iterations].
    assert (W1 : forall l k, wanted (option_map label_list l) k = asked l k) by (intros [zs|] k; cbn [option_map wanted asked]; [apply label_list_mem|reflexivity]).
    split; [intros s; rewrite dget_filter_scores, W1; reflexivity|]. split; [intros x; rewrite dget_filter_scores, W1; reflexivity|].
    split; [destruct (ra_sources args); cbn [option_map filter_scores]; [apply dict_of_NoDup|rewrite Et; unfold tdict, dkeys; rewrite map_map; cbn; rewrite map_id; apply sources_NoDup]|].
    split; [destruct (ra_variables args); cbn [option_map filter_scores]; [apply dict_of_NoDup|rewrite Eb; unfold bdict, beliefs_of, dkeys; rewrite map_map; cbn; rewrite map_id; apply distinct_NoDup]|]. split; reflexivity.
  Qed.
  Lemma most_loop_lookup (r : result) (N : nonempty_beliefs r) vars acc m : most_believed_loop ltw r vars acc = Ok m -> (forall x, In x vars -> In x (dkeys (r_belief r))) -> forall x,
    if mem x vars then exists l, get_most_believed_values r x = Ok l /\ dget m x = Some (sort_with ltw l) else dget m x = dget acc x.
  Proof.
    revert acc. induction vars as [|y vars IH]; intros acc; cbn [most_believed_loop]; [intros [= <-] _ x; reflexivity|]. destruct (get_most_believed_values r y) as [l|] eqn:Ey; cbn [bind]; [|discriminate].
    intros E H x. specialize (IH _ E (fun z Hz => H z (or_intror Hz)) x). unfold mem in *. cbn [existsb]. destruct (existsb (beq x) vars); [now rewrite orb_true_r|]. rewrite orb_false_r.
    rewrite dget_dset in IH. destruct (beq_spec x y) as [Exy|]; [rewrite Exy in *; eauto|exact IH].
  Qed.
  Lemma output_shows args sup r' e : nonempty_beliefs r' -> ra_fields args <> [] -> get_output_obj ltw rnd r' (Some (ra_fields args)) sup = Ok e -> shows args sup r' e.
  Proof.
    intros N NE E f. pose proof (output_lookup ltw rnd r' _ sup e E NE f) as Q. rewrite Q. destruct (mem f (ra_fields args)) eqn:M; [apply mem_In in M|left; now apply mem_false].
    destruct f; cbn [output_field field_value]; try (split; [exact M|reflexivity]).
    - destruct sup as [values|]; [|right; auto]. destruct (get_accuracy rnd values r') as [a|e0] eqn:Ea.
      + split; [exact M|]. exists values. rewrite Ea. auto.
      + destruct (acc_ok irrefl rnd r' values N e0 Ea) as [->| ->]; (split; [exact M|]; exists values; rewrite Ea; auto).
    - destruct (most_believed_loop ltw r' (dkeys (r_belief r')) []) as [m|e0] eqn:Em.
      + cbn [bind]. split; [exact M|]. exists m. split; [reflexivity|]. intros x. pose proof (most_loop_lookup r' N _ _ _ Em (fun _ H => H) x) as L. destruct (mem x (dkeys (r_belief r'))) eqn:Mx.
        * destruct L as (l & -> & ->). eexists. split; [reflexivity|]. split; [apply sort_perm|apply sort_sorted].
        * apply mem_false, dget_None in Mx. unfold get_most_believed_values. rewrite Mx. exact L.
      + exfalso. assert (G : forall vars acc, (forall x, In x vars -> In x (dkeys (r_belief r'))) -> exists d, most_believed_loop ltw r' vars acc = Ok d).
        { induction vars as [|x vars IHv]; intros acc H; cbn [most_believed_loop]; [eauto|]. destruct (most_ok irrefl r' x N) as (l0 & -> & _); [apply H; now left|]. cbn [bind]. apply IHv. intros y Hy. apply H. now right. }
        destruct (G (dkeys (r_belief r')) [] (fun _ H => H)) as [d Ed]. congruence.
  Qed.

  Lemma label_of_table c : client_class c -> exists l, label_of c = Some l /\ In (l, c) label_table.
  Proof. intros [l Hl]. exists l. split; [|exact Hl]. now apply C47_labels. Qed.
  Lemma table_functional l l' c c' : In (l, c) label_table -> In (l', c') label_table -> (l = l' <-> c = c').
  Proof. intros H H'. apply C47_one_to_one; now apply C47_labels. Qed.

  (** the loop, from the [i]-th class on *)
  Lemma run_objects_spec clocks fuel args b impf ts (d : data) sup : build b impf ts = Ok d -> ra_fields args <> [] -> forall cs objs i cell out,
    Forall2 (fun c co => fst co = c /\ requested c (given args) = Some (snd co)) cs objs -> (forall c, In c cs -> client_class c) -> same_cell cell (iterator_cell (given args)) -> NoDup (dkeys out) ->
    match run_objects ltw rnd clocks fuel args d sup i cell objs out with
    | Printed out' => NoDup (dkeys out') /\
        (forall l, In l (dkeys out') <-> In l (dkeys out) \/ exists c, In c cs /\ In (l, c) label_table) /\
        (forall l e, dget out' l = Some e -> (dget out l = Some e /\ forall c, In c cs -> ~ In (l, c) label_table) \/
          exists j c, nth_error cs j = Some c /\ In (l, c) label_table /\ (forall k, j < k -> nth_error cs k <> Some c) /\ entry_of clocks fuel args d sup (i + j) c e)
    | Crashed (CrashAlg e) => exists j c, nth_error cs j = Some c /\ alone (clocks (i + j)) fuel (given args) d c (Err e) /\
        forall k c', k < j -> nth_error cs k = Some c' -> exists r, alone (clocks (i + k)) fuel (given args) d c' (Ok r)
    | _ => False
    end.
  Proof.
    intros Hb NE. assert (Rd : real d) by (exists b, impf, ts; exact Hb). induction cs as [|c cs IH]; intros objs i cell out Ho Hc Hcell ND.
    - inversion Ho; subst. cbn [run_objects]. split; [exact ND|]. split; [|].
      + intros l. split; [auto|]. intros [H|(c & [] & _)]; exact H.
      + intros l e E. left. split; [exact E|]. intros c [].
    - destruct objs as [|[c0 o] objs']; [inversion Ho|]. assert (Hoc : (fst (c0, o) = c /\ requested c (given args) = Some (snd (c0, o))) /\ Forall2 (fun c co => fst co = c /\ requested c (given args) = Some (snd co)) cs objs') by (inversion Ho; auto). destruct Hoc as [[H1 H2] Ho']. clear Ho. cbn [fst snd] in H1, H2. subst c0. cbn [run_objects].
      assert (Sm : same_cobj (deref cell o) o) by (apply (deref_same c (given args)); assumption).
      destruct (crun_same d (clocks i) fuel (deref cell o) o Rd Sm) as [Er Es]. destruct (crun (clocks i) fuel (deref cell o) d) as [r o'] eqn:Ec. cbn [fst snd] in Er, Es. destruct r as [r|e].
      + destruct (label_of_table c) as (l & -> & Hl); [apply Hc; now left|].
        assert (Fu : full_scores ts r) by exact (crun_full b impf ts d _ _ _ _ _ Hb Ec).
        set (r' := result_filter r (option_map label_list (ra_sources args)) (option_map label_list (ra_variables args))).
        assert (Nr : nonempty_beliefs r') by (apply filter_nonempty, (full_nonempty ts), Fu).
        destruct (output_ok irrefl ltw rnd r' (Some (ra_fields args)) sup Nr) as [obj Eobj]. rewrite Eobj.
        assert (En : entry_of clocks fuel args d sup i c obj).
        { exists r, r'. split; [exists o; split; [exact H2|exact Er]|]. split; [apply (filter_restricted args ts), Fu|]. split; [now apply output_shows|exact Eobj]. }
        specialize (IH objs' (S i) (store cell o') (dset out l obj) Ho' (fun c' H => Hc c' (or_intror H))).
        specialize (IH (store_same c (given args) o o' cell H2 Hcell Es) (dset_NoDup _ _ _ ND)).
        destruct (run_objects ltw rnd clocks fuel args d sup (S i) (store cell o') objs' (dset out l obj)) as [out'| |[| |e| |]]; try exact IH.
        * destruct IH as (I1 & I2 & I3). split; [exact I1|]. split.
          -- intros l0. rewrite I2. split.
             ++ intros [H|(c' & Hc' & Hl')]; [|right; exists c'; split; [now right|exact Hl']]. destruct (in_dec (eq_dec_of (A:=pystr)) l0 (dkeys out)) as [|No]; [now left|]. right. exists c. split; [now left|].
                destruct (beq_spec l0 l) as [->|Nl]; [exact Hl|]. exfalso. apply No. assert (Q : dget (dset out l obj) l0 <> None) by (intros Q; apply dget_None in Q; contradiction). rewrite dget_dset in Q. destruct (beq_spec l0 l); [contradiction|].
                destruct (dget out l0) eqn:E0; [exact (dget_dkeys _ _ _ E0)|congruence].
             ++ assert (Keep : forall k, In k (dkeys out) \/ k = l -> In k (dkeys (dset out l obj))).
                { intros k Hk. destruct (dget (dset out l obj) k) eqn:E0; [exact (dget_dkeys _ _ _ E0)|]. rewrite dget_dset in E0. destruct (beq_spec k l); [discriminate|]. apply dget_None in E0. tauto. }
                intros [H|(c' & [<-|Hc'] & Hl')]; [left; apply Keep; now left|left; apply Keep; right; apply (table_functional l0 l c c Hl' Hl); reflexivity|right; eauto].
          -- intros l0 e E. destruct (I3 l0 e E) as [[E0 Hno]|(j & c' & Hj & Hl' & Hlast & He)].
             ++ rewrite dget_dset in E0. destruct (beq_spec l0 l) as [->|Nl].
                ** injection E0 as <-. right. exists 0, c. split; [reflexivity|]. split; [exact Hl|]. split; [|rewrite Nat.add_0_r; exact En]. intros [|k] Hk Ek; [lia|]. cbn in Ek. apply nth_error_In in Ek. exact (Hno c Ek Hl).
                ** left. split; [exact E0|]. intros c' [<-|Hc']; [|now apply Hno]. intros Hl'. apply Nl. apply (table_functional l0 l c c Hl' Hl). reflexivity.
             ++ right. exists (S j), c'. split; [exact Hj|]. split; [exact Hl'|]. rewrite <- Nat.add_succ_comm. split; [|exact He]. intros [|k] Hk; [lia|]. cbn. apply Hlast. lia.
        * destruct IH as (j & c' & Hj & He & Hbefore). exists (S j), c'. rewrite <- Nat.add_succ_comm. split; [exact Hj|]. split; [exact He|]. intros [|k] c2 Hk Ek.
          -- cbn in Ek. injection Ek as <-. rewrite Nat.add_0_r. exists r, o. auto.
          -- rewrite <- Nat.add_succ_comm. apply (Hbefore k c2); [lia|exact Ek].
      + exists 0, c. rewrite Nat.add_0_r. split; [reflexivity|]. split; [exists o; auto|]. intros k c' Hk. lia.
  Qed.

  (** ** C49 *)
  Theorem C49_run clocks fuel args : proper_args args ->
    warnings_for (given args) (ra_classes args) (fst (run_algorithm parse label ord ltw rnd clocks fuel args)) /\
    let out := snd (run_algorithm parse label ord ltw rnd clocks fuel args) in
    (* without --supervised: a usage error if accuracy is asked for, even if the file is bad; otherwise the file is a matrix *)
    (ra_supervised args = false -> In FAccuracy (ra_fields args) -> out = UsageError) /\
    (ra_supervised args = false -> ~ In FAccuracy (ra_fields args) ->
       match csv_to_masked_array parse (ra_text args) with
       | Err e => out = Crashed (CrashLoad (InvalidCsv e))
       | Ok m => exists d, matrix_dataset label false None m = Ok d /\ outcome_spec clocks fuel args d None out
       end) /\
    (* with --supervised: the first row holds the true values, the others are the matrix *)
    (ra_supervised args = true ->
       match csv_to_masked_array parse (ra_text args) with
       | Err e => out = Crashed (CrashLoad (InvalidCsv e))
       | Ok m => exists sv d values, (forall i j, cell sv i j = cell m (S i) j) /\ length sv = length m - 1 /\ matrix_dataset label false None sv = Ok d /\
           (forall j, dget values j = option_map label (cell m 0 j)) /\ outcome_spec clocks fuel args d (Some values) out
       end).
  Proof.
    intros (Hc & NE & strs & Hp). destruct (C45_parsed_typed pfloat decimal DEC _ _ Hp) as [Ty ND]. change (dict_of _) with (given args) in Ty, ND.
    unfold run_algorithm. change (dict_of _) with (given args). destruct (make_objects_ok (given args) (ra_classes args) Hc ND Ty) as (objs & ws & -> & Ho & Hw). cbn [fst snd]. split; [exact Hw|].
    assert (Loop : forall b impf ts (d : data) sup, build b impf ts = Ok d -> outcome_spec clocks fuel args d sup (run_objects ltw rnd clocks fuel args d sup 0 (iterator_cell (given args)) objs [])).
    { intros b impf ts d sup Hb. pose proof (run_objects_spec clocks fuel args b impf ts d sup Hb NE (ra_classes args) objs 0 (iterator_cell (given args)) [] Ho Hc (same_cell_refl _) (NoDup_nil _)) as Q.
      unfold outcome_spec. destruct (run_objects ltw rnd clocks fuel args d sup 0 (iterator_cell (given args)) objs []) as [out| |[| |e| |]]; try exact Q.
      destruct Q as (Q1 & Q2 & Q3). split; [exact Q1|]. split; [intros l; rewrite Q2; cbn; tauto|]. intros l e E. destruct (Q3 l e E) as [[E0 _]|H]; [discriminate|exact H]. }
    cbv zeta. split; [|split].
    - intros -> Ha. apply mem_In in Ha. now rewrite Ha.
    - intros -> Ha. apply mem_false in Ha. rewrite Ha. pose proof (C10_from_csv (F:=F) parse label (ra_text args)) as Q. destruct (csv_to_masked_array parse (ra_text args)) as [m|e]; [|now rewrite Q].
      destruct Q as (d & -> & Ed). exists d. split; [exact Ed|]. exact (Loop false None (get_triples label m) d None Ed).
    - intros ->. pose proof (C12_supervised_csv (F:=F) parse label (ra_text args)) as Q. destruct (csv_to_masked_array parse (ra_text args)) as [m|e]; [|now rewrite Q].
      destruct Q as (vals & sv & d & -> & Hv & Hcell & Hl & Ed). exists sv, d, (map (fun p => (fst p, label (snd p))) vals). split; [exact Hcell|]. split; [exact Hl|]. split; [exact Ed|]. split; [|exact (Loop false None (get_triples label sv) d _ Ed)].
      intros j. rewrite <- Hv. clear. induction vals as [|[k v] vals IH]; [reflexivity|]. cbn [map dget fst snd]. destruct (beq j k); [reflexivity|exact IH].
  Qed.
  (** a usage error comes before anything is read or run: the outcome does not depend on the file, the clock or the loop bound *)
  Theorem C49_usage_error_first clocks fuel args text : proper_args args -> ra_supervised args = false -> In FAccuracy (ra_fields args) ->
    snd (run_algorithm parse label ord ltw rnd clocks fuel (RunArgs (ra_classes args) (ra_params args) text false (ra_sources args) (ra_variables args) (ra_fields args))) = UsageError.
  Proof. intros P H1 H2. refine (proj1 (proj2 (C49_run clocks fuel (RunArgs _ _ _ _ _ _ _) _)) _ _); [exact P|reflexivity|exact H2]. Qed.
End Run.

(** ** C56 *)
Section Synth.
  Context {C W : Type} {EW : Eqb W} {F' : Num} {FOK : NumOK F'}.
  Variable parse : pystr -> option (option C).
  Variable show : C -> pystr.
  Hypothesis OK : prints_numbers parse show.
  Variable num_of : nat -> C.
  Variable label : C -> W.
  (** what argparse gives, with the defaults of SyntheticData *)
  Definition valid_synth (args : synth_args (F:=XR)) : Prop :=
    valid_trust (sa_trust args) /\ (forall cp, sa_claim_prob args = Some cp -> valid_prob cp) /\
    (forall n, sa_domain_size args = Some n -> (2 <= n)%Z) /\ (forall n, sa_num_vars args = Some n -> (1 <= n)%Z).
  Definition synth_variables (args : synth_args (F:=XR)) : Z := match sa_num_vars args with Some n => n | None => 100%Z end.
  Lemma numeric_csv (m : matrix nat) : to_csv show (numeric num_of m) = to_csv (fun n => show (num_of n)) m.
  Proof. unfold to_csv, numeric. rewrite map_map. f_equal. apply map_ext. intros row. rewrite map_map. f_equal. apply map_ext. intros [v|]; reflexivity. Qed.
  Lemma strip_newline s : strip (s ++ [newline]) = strip s.
  Proof.
    destruct (strip_decomp s) as (a & b & Ha & Hb & Es & Hn). rewrite Es at 1. rewrite <- app_assoc, <- app_assoc. apply strip_unique; [exact Ha| |exact Hn].
    intros c Hc. apply in_app_or in Hc. destruct Hc as [Hc|[<-|[]]]; [auto|reflexivity].
  Qed.
  Lemma triples_numeric (m : matrix nat) : get_triples (fun n => label (num_of n)) m = get_triples label (numeric num_of m).
  Proof.
    assert (R : forall (source : nat) row j0, flat_map (fun '(var, val) => match val with Some c => [(source, var, label (num_of c))] | None => [] end) (enum_from j0 row) =
      flat_map (fun '(var, val) => match val with Some c => [(source, var, label c)] | None => [] end) (enum_from j0 (map (option_map num_of) row))).
    { intros source. induction row as [|v row IHr]; intros j0; [reflexivity|]. cbn [map enum_from flat_map]. rewrite IHr. destruct v; reflexivity. }
    unfold get_triples, numeric. 
    assert (G : forall m i0, flat_map (fun '(source, row) => flat_map (fun '(var, val) => match val with Some c => [(source, var, label (num_of c))] | None => [] end) (enum_from 0 row)) (enum_from i0 m) =
      flat_map (fun '(source, row) => flat_map (fun '(var, val) => match val with Some c => [(source, var, label c)] | None => [] end) (enum_from 0 row)) (enum_from i0 (map (map (option_map num_of)) m))).
    { clear m. induction m as [|row m IH]; intros i0; [reflexivity|]. cbn [map enum_from flat_map]. rewrite IH, R. reflexivity. }
    apply G.
  Qed.
  (** valid arguments: a CSV text is printed which, with the newline that print adds, can be read back as a supervised dataset
      with a source for each trust value and all variables with their true values; anything else is a usage error *)
  Theorem C56_synth g args : uniform g ->
    (valid_synth args -> exists csv m tv vals (d : dataset nat nat W F'), generate_synthetic (fun n => show (num_of n)) g args = SynthPrinted csv /\
       supervised_from_csv label parse (csv ++ [newline]) = Ok (vals, m, d) /\
       (forall i, i < length (sa_trust args) <-> source_id d i <> None) /\ (forall j, (Z.of_nat j < synth_variables args)%Z <-> variable_id d j <> None) /\
       (forall j, (Z.of_nat j < synth_variables args)%Z <-> dget vals j <> None) /\
       generate g (Trust1 (sa_trust args)) (synth_variables args) (dflt (lit 1 2) (sa_claim_prob args)) (dflt 4%Z (sa_domain_size args)) = Ok tv /\ m = numeric num_of (fst tv)) /\
    (~ valid_synth args -> exists e, generate_synthetic (fun n => show (num_of n)) g args = SynthUsage e /\ value_error e).
  Proof.
    intros U. set (cp := dflt (lit 1 2) (sa_claim_prob args)). set (dom := dflt 4%Z (sa_domain_size args)).
    assert (Iff : valid_synth args <-> exists v, Trust1 (sa_trust args) = Trust1 v /\ valid_trust v /\ valid_prob cp /\ (2 <= dom)%Z /\ (1 <= synth_variables args)%Z).
    { unfold valid_synth, cp, dom, synth_variables, dflt. split.
      - intros (H1 & H2 & H3 & H4). exists (sa_trust args). split; [reflexivity|]. split; [exact H1|]. split; [destruct (sa_claim_prob args) as [q|]; [now apply H2|]|].
        + right. exists (1/2)%R. split; [|lra]. unfold lit. cbn [n_div n_ofZ XR]. unfold xdiv. cbn. rewrite reqb_false by lra. reflexivity.
        + split; [destruct (sa_domain_size args); [now apply H3|lia]|destruct (sa_num_vars args); [now apply H4|lia]].
      - intros (v & [= <-] & H1 & H2 & H3 & H4). split; [exact H1|]. split; [intros q Eq; now rewrite Eq in H2|]. split; intros n En; [now rewrite En in H3|now rewrite En in H4]. }
    unfold generate_synthetic. fold cp dom. change (dflt 100%Z (sa_num_vars args)) with (synth_variables args). split.
    - intros V. apply Iff in V. destruct (proj2 (C14_accepts_iff g _ _ _ _ U) V) as [[m tv] E]. 
      destruct (C16_synthetic_round_trip parse show OK num_of label (F':=F') g _ _ _ _ m tv E) as (vals & d & E1 & E2 & E3). rewrite E. exists (synth_csv show num_of m tv), (numeric num_of m), (m, tv), vals, d. split; [f_equal; symmetry; apply numeric_csv|].
      split; [revert E1; unfold supervised_from_csv, csv_to_masked_array; now rewrite strip_newline|].
      assert (E2' : matrix_dataset (fun n => label (num_of n)) false None m = Ok d).
      { rewrite <- E2. unfold matrix_dataset. f_equal. apply triples_numeric. }
      destruct (C15_dataset (fun n => label (num_of n)) g _ _ _ _ m tv d E E2') as [S1 S2]. split; [exact S1|]. split; [exact S2|]. split; [|split; reflexivity].
      intros j. rewrite E3. destruct (C15_complete _ _ _ _ _ _ _ E) as (Hn & Lt & _). split.
      + intros Hj. destruct (nth_error tv j) eqn:En; [discriminate|]. apply nth_error_None in En. lia.
      + intros H. destruct (nth_error tv j) eqn:En; [|exfalso; now apply H]. assert (j < length tv) by (apply nth_error_Some; congruence). lia.
    - intros V. destruct (C14_rejects g (Trust1 (sa_trust args)) (synth_variables args) cp dom) as (e & E & Ve & _); [intros H; apply V, Iff, H|]. rewrite E. exists e. split; [|exact Ve]. destruct e; try reflexivity. exfalso. now apply Ve.
  Qed.
End Synth.

(** ** C57 *)
Section Graph.
  Context {C W : Type} {EW : Eqb W} {F : Num} {FOK : NumOK F}.
  Variable parse : pystr -> option (option C).
  Variable label : C -> W.
  Variable T : trig F.
  Variable show_nat : nat -> pystr.
  Variable show_w : W -> pystr.
  (** labels of the nodes, counted from 0 or from 1 *)
  Definition shown_number (args : graph_args) (i : nat) : pystr := show_nat (if ga_one_indexed args then i + 1 else i).
  Definition shown_value (w : W) : pystr := strip_point_zero (show_w w).
  Definition graph_style (args : graph_args) : style nat nat W F :=
    Style (fun s => lit_str "s" ++ shown_number args s) (fun c => lit_str "v" ++ shown_number args (fst c) ++ lit_str "=" ++ shown_value (snd c)) (fun x => lit_str "v" ++ shown_number args x)
      default_node_colour [n_ofZ 1; n_ofZ 1; n_ofZ 1] [lit 1 2; lit 1 2; lit 1 2] [n_ofZ 0; n_ofZ 0; n_ofZ 0].
  (** the arguments that were given, and defaults for the others *)
  Definition given_sizes (args : graph_args) (sz : sizes) : Prop :=
    forall o dflt v, In (o, dflt, v) [(ga_width args, 800, g_width sz); (ga_radius args, 50, g_radius sz); (ga_spacing args, 20, g_spacing sz); (ga_font args, 15, g_font sz); (ga_line_width args, 3, g_line_width sz); (ga_border args, 3, g_border sz)]%Z ->
      v = match o with Some x => x | None => dflt end.
  Theorem C57_graph args :
    match csv_to_masked_array parse (ga_text args) with
    | Err e => generate_graph parse label T show_nat show_w args = GraphUsage (InvalidCsv e)
    | Ok m => exists sz P height, given_sizes args sz /\ generate_graph parse label T show_nat show_w args = GraphDrawn (picture sz (graph_style args) (arrow_head T sz) (get_triples label m) P height None)
    end.
  Proof.
    unfold generate_graph. pose proof (C10_from_csv (F:=F) parse label (ga_text args)) as Q. destruct (csv_to_masked_array parse (ga_text args)) as [m|e]; [|now rewrite Q].
    destruct Q as (d & -> & Ed). set (nm := matrix_naming show_nat show_w (negb (ga_one_indexed args))).
    destruct (C51_contents (fun _ => None) T (graph_sizes args) nm false None (get_triples label m) d Ed (RState (Some (get_height (graph_sizes args) d)) DefaultScheme) None default_node_colour) as (P & height & ->); [reflexivity|].
    exists (graph_sizes args), P, height. split.
    - intros o df v H. cbn [In] in H. repeat destruct H as [H|H]; try contradiction; injection H as <- <- <-; reflexivity.
    - f_equal. unfold style_of, graph_style, nm, matrix_naming, shown_number, shown_value, format_label. cbn [nm_src nm_var nm_claim nm_show_src nm_show_var rs_colours get_background_colour get_edge_colour get_animation_progress_colour].
      destruct (ga_one_indexed args); cbn [negb]; reflexivity.
  Qed.
End Graph.

(** * Non-vacuity *)
Module CliExamples.
  Import CsvExamples ClientExamples.
  Lemma xr_irrefl : forall x : XR, n_ltb x x = false.
  Proof. intros [r| | |]; cbn; try reflexivity. apply rltb_false. lra. Qed.
  (** sums, twice, and average_log, sharing the iterator object made from "iterator=fixed-7"; the other parameter is unused *)
  Definition args : run_args (F:=XR) :=
    RunArgs [CSums; CAverageLog; CSums] (Some [(lit_str "iterator", PIterator (IFixed 7 0)); (lit_str "g", PFloat PInf)]) (to_csv show1 m2) false (Some [2%Z; (-1)%Z]) None [FTrust; FIterations].
  Example args_proper : proper_args pf ascii_decimal args.
  Proof.
    split; [|split; [discriminate|]].
    - intros c [<-|[<-|[<-|[]]]]; [exists (lit_str "sums")|exists (lit_str "average_log")|exists (lit_str "sums")]; cbn; tauto.
    - exists [lit_str "iterator=fixed-7"; lit_str " g = 0.1"]. repeat constructor; vm_compute; reflexivity.
  Qed.
  Definition ident : list pystr -> list pystr := fun l => l.
  Lemma ident_ok : forall l, Permutation l (ident l). Proof. intros l. apply Permutation_refl. Qed.
  Definition outcome1 := run_algorithm parse1 (fun n : nat => n) ident Nat.ltb (fun _ => 0) (fun _ _ => Fin 0%R) 100 args.
  Example warned : fst outcome1 = [lit_str "Ignored parameters for 'Sums': g"; lit_str "Ignored parameters for 'AverageLog': g"; lit_str "Ignored parameters for 'Sums': g"].
  Proof. unfold outcome1, run_algorithm. vm_compute. reflexivity. Qed.
  (** the two labels are printed, after 7 rounds each, with the trust of source 2 only *)
  Lemma objects1 c (o : cobj XR nat nat nat) : In c (ra_classes args) -> requested c (given args) = Some o -> exists a p, a <> UnboundedSums /\ p <> BadPrior /\ o = OIterative (AObj a p (IFixed 7 0) None).
  Proof. intros Hc Ho. destruct Hc as [<-|[<-|[<-|[]]]]; cbn in Ho; injection Ho as <-; eexists _, _; (split; [|split; [|reflexivity]]); discriminate. Qed.
  Lemma returns1 (d : dataset nat nat nat XR) c r : matrix_dataset (fun n : nat => n) false None m2 = Ok d -> In c (ra_classes args) -> alone (fun _ => Fin 0%R) 100 (given args) d c r -> exists x, r = Ok x.
  Proof.
    intros Hd Hc (o & Ho & ->). destruct (objects1 c o Hc Ho) as (a & p & Ha & Hp & ->).
    destruct (C28_fixed_returns false None (get_triples (fun n : nat => n) m2) d Hd (fun _ => Fin 0%R) 100 a p 7 0 None ltac:(discriminate) Ha Hp ltac:(cbn; lia)) as [x Ex].
    exists x. rewrite <- Ex. clear. unfold crun. now destruct (run _ _ _ _) as [r1 o1].
  Qed.
  Lemma labels1 l : (exists c, In c (ra_classes args) /\ In (l, c) label_table) <-> l = lit_str "sums" \/ l = lit_str "average_log".
  Proof.
    split.
    - intros (c & [<-|[<-|[<-|[]]]] & Hl); apply (proj2 (C47_labels _ _)) in Hl; vm_compute in Hl; injection Hl as <-; auto.
    - intros [-> | ->]; [exists CSums|exists CAverageLog]; (split; [cbn; tauto|cbn; tauto]).
  Qed.
  Lemma printed_from oc (d : dataset nat nat nat XR) : matrix_dataset (fun n : nat => n) false None m2 = Ok d ->
    outcome_spec Nat.ltb (fun _ => 0) (fun _ _ => Fin 0%R) 100 args d None oc ->
    exists out, oc = Printed out /\ forall l, In l (dkeys out) <-> l = lit_str "sums" \/ l = lit_str "average_log".
  Proof.
    intros Hd Q. unfold outcome_spec in Q. destruct oc as [out| |[| |e| |]]; try contradiction.
    - exists out. split; [reflexivity|]. destruct Q as (_ & Q & _). intros l. rewrite Q. apply labels1.
    - destruct Q as (i & c & Hi & Ha & _). destruct (returns1 d c (Err e) Hd) as [x Ex]; [exact (nth_error_In _ _ Hi)|exact Ha|discriminate].
  Qed.
  Example printed : exists out, snd outcome1 = Printed out /\ forall l, In l (dkeys out) <-> l = lit_str "sums" \/ l = lit_str "average_log".
  Proof.
    destruct (C49_run parse1 (fun n : nat => n) ident ident_ok Nat.ltb (fun _ => 0) xr_irrefl pf ascii_decimal ascii_ok (fun _ _ => Fin 0%R) 100 args args_proper) as (_ & _ & Q & _).
    specialize (Q eq_refl ltac:(cbn; intuition discriminate)). assert (Ecsv : csv_to_masked_array parse1 (ra_text args) = Ok m2) by (vm_compute; reflexivity). rewrite Ecsv in Q. destruct Q as (d & Hd & Q).
    exact (printed_from _ d Hd Q).
  Qed.
  Definition args_acc : run_args (F:=XR) := RunArgs (ra_classes args) (ra_params args) [] false None None [FAccuracy].
  Lemma args_acc_proper : proper_args pf ascii_decimal args_acc.
  Proof. split; [exact (proj1 args_proper)|]. split; [discriminate|exact (proj2 (proj2 args_proper))]. Qed.
  Example usage : snd (run_algorithm parse1 (fun n : nat => n) ident Nat.ltb (fun _ => 0) (fun _ _ => Fin 0%R) 100 (RunArgs (ra_classes args_acc) (ra_params args_acc) (lit_str "not a matrix") false None None [FAccuracy])) = UsageError.
  Proof. exact (C49_usage_error_first parse1 (fun n : nat => n) ident ident_ok Nat.ltb (fun _ => 0) xr_irrefl pf ascii_decimal ascii_ok (fun _ _ => Fin 0%R) 100 args_acc (lit_str "not a matrix") args_acc_proper eq_refl (or_introl eq_refl)). Qed.
  Definition synth1 : synth_args (F:=XR) := SynthArgs [Fin 1%R; Fin (1/2)%R] (Some 3%Z) None None.
  Example synth_valid : valid_synth synth1.
  Proof.
    split; [|split; [discriminate|split; [discriminate|intros n [= <-]; lia]]]. split; [discriminate|]. intros t [<-|[<-|[]]]; eexists; (split; [reflexivity|lra]).
  Qed.
  Example synth_invalid : ~ valid_synth (SynthArgs [Fin 1%R] None None (Some 1%Z)).
  Proof. intros (_ & _ & H & _). specialize (H 1%Z eq_refl). lia. Qed.
End CliExamples.
