(** C97: the JSON of an answer.  C98: the built-in datasets. *)
From Coq Require Import NArith String Lia.
From Verif Require Import Base Num Spec SpecAlg Dataset DatasetRep Iterators Algorithms Results PyStr Regex Matrix PropsMatrix Supervised Client PropsClient Graph
  Driver Rounds PropsIter PropsRun PropsExperiment PropsOrd Front FrontRep PropsCli PropsWeb PropsSafe WebForm PropsForm WebPage PropsPage.
Import List.

(** j.k1.k2. ... *)
Fixpoint at_path {F : Num} (j : jval (F:=F)) (path : list pystr) : option (jval (F:=F)) :=
  match path with
  | [] => Some j
  | k :: ks => match j with JvObj o => match dget o k with Some j' => at_path j' ks | None => None end | _ => None end
  end.

Section C97.
  Context {C W : Type} {EW : Eqb W} {F : Num} {FOK : NumOK F}.
  Variable parse : pystr -> option (option C).
  Variable label : C -> W.
  Variable pfloat : pystr -> option F.
  Variable decimal : pychar -> option N.
  Hypothesis DEC : decimal_ok decimal.
  Variable ord : list pystr -> list pystr.
  Hypothesis Ord : forall l, Permutation.Permutation l (ord l).
  Variable ltw : W -> W -> bool.
  Variable rnd : nat -> nat.
  Hypothesis irrefl : forall x : F, n_ltb x x = false.
  Variable T : trig F.
  Variable show_nat : nat -> pystr.
  Variable show_w : W -> pystr.
  Variable loads : pystr -> option (jval (F:=F)).
  Variable oset : list pystr -> list pystr.
  Hypothesis Oset : forall l, Permutation.Permutation (oset l) l.
  Hypothesis show_nat_inj : forall a b, show_nat a = show_nat b -> a = b.
  Hypothesis show_w_inj : forall a b, show_w a = show_w b -> a = b.
  Variable json_w : W -> jval (F:=F).
  Variables (clocks : nat -> nat -> F) (fuel : nat).
  Notation web_run := (web_run parse label pfloat decimal ord ltw rnd T show_nat show_w loads oset).
  Notation entry := (web_entry (W:=W) (F:=F)).
  Notation entry_json := (entry_json show_nat show_w json_w).
  Notation str := lit_str.
  Notation result := (result nat nat W F).
  Notation jval := (jval (F:=F)).

  Definition number_or_null (x : option F) : jval := match x with Some x => JvNum x | None => JvNull end.
  Definition the_keys : list pystr := [str "time"; str "iterations"; str "trust"; str "belief"; str "trust_stats"; str "belief_stats"; str "most_believed_values"].
  (** the JSON object [j] shows the result [r] *)
  Definition shows_result (j : jval) (r : result) : Prop :=
    at_path j [str "time"] = Some (JvNum (r_time r)) /\
    at_path j [str "iterations"] = Some (number_or_null (option_map (fun n => n_ofZ (Z.of_nat n)) (r_iterations r))) /\
    (forall s, at_path j [str "trust"; show_nat s] = option_map JvNum (trust_of r s)) /\
    (forall k, at_path j [str "trust"; k] <> None -> exists s, k = show_nat s) /\
    (forall x w, at_path j [str "belief"; show_nat x; show_w w] = option_map JvNum (belief_of r (x, w))) /\
    (forall k k', at_path j [str "belief"; k; k'] <> None -> exists x w, k = show_nat x /\ k' = show_w w) /\
    at_path j [str "trust_stats"; str "mean"] = Some (JvNum (fst (get_trust_stats r))) /\
    at_path j [str "trust_stats"; str "stddev"] = Some (JvNum (snd (get_trust_stats r))) /\
    (forall x, at_path j [str "belief_stats"; show_nat x; str "mean"] = option_map (fun p => JvNum (fst p)) (dget (get_belief_stats r) x)) /\
    (forall x, at_path j [str "belief_stats"; show_nat x; str "stddev"] = option_map (fun p => JvNum (snd p)) (dget (get_belief_stats r) x)) /\
    (forall x, match get_most_believed_values r x with
               | Ok l => exists l', at_path j [str "most_believed_values"; show_nat x] = Some (JvArr (map json_w l')) /\ Permutation l' l
               | Err _ => at_path j [str "most_believed_values"; show_nat x] = None
               end).
  (** ... and the differences from the previous result, read from [obj] *)
  Definition shows_differences (j : jval) (obj : list (pystr * jval)) (r : result) : Prop :=
    let prev := JvObj obj in
    (forall k v, at_path j [str "diff"; str "trust"; k] = Some v <->
       exists s y x z, k = show_nat s /\ trust_of r s = Some y /\ at_path prev [str "trust"; k] = Some x /\ number x = Some z /\ v = JvNum (n_sub y z)) /\
    (forall k k' v, at_path j [str "diff"; str "belief"; k; k'] = Some v <->
       exists x w y u z, k = show_nat x /\ k' = show_w w /\ belief_of r (x, w) = Some y /\ at_path prev [str "belief"; k; k'] = Some u /\ number u = Some z /\ v = JvNum (n_sub y z)) /\
    (exists u z, at_path prev [str "time"] = Some u /\ number u = Some z /\ at_path j [str "diff"; str "time_taken"] = Some (JvNum (n_sub (r_time r) z))) /\
    (exists u, at_path prev [str "iterations"] = Some u /\
       at_path j [str "diff"; str "iterations"] = Some (number_or_null match r_iterations r, number u with Some n, Some z => Some (n_sub (n_ofZ (Z.of_nat n)) z) | _, _ => None end)).

  Lemma at_cons (o : list (pystr * jval)) k ks : at_path (JvObj o) (k :: ks) = match dget o k with Some j => at_path j ks | None => None end.
  Proof. reflexivity. Qed.
  Lemma dget_None_iff (o : list (pystr * jval)) k : dget o k <> None <-> In k (dkeys o).
  Proof. pose proof (dget_None o k) as H. split; intros H0; [destruct (in_dec (fun a b => eq_dec_of a b) k (dkeys o)); [assumption|exfalso; apply H0; now apply H]|intros Q; apply H in Q; contradiction]. Qed.
  Lemma dget_app_None (o o' : list (pystr * jval)) k : dget o k = None -> dget (o ++ o') k = dget o' k.
  Proof. induction o as [|[a x] o IH]; [reflexivity|]. cbn [app]. rewrite !PropsExperiment.dget_cons. destruct (beq k a); [discriminate|exact IH]. Qed.
  Lemma name_time : field_name FTime = str "time". Proof. reflexivity. Qed.
  Lemma entry_at e f v ks : dget (we_fields e) f = Some v -> at_path (JvObj (entry_json e)) (field_name f :: ks) = at_path (json_value show_nat show_w json_w v) ks.
  Proof. intros H. rewrite at_cons. rewrite (entry_json_get show_nat show_w json_w e f v H). reflexivity. Qed.

  Theorem C97_answer q data ms l e : web_run clocks fuel q = R200 data ms -> dget data l = Some e ->
    exists lines items m (d : dataset nat nat W F) i c r, parameter_lines q lines /\ Forall2 (fun s it => algorithm_parameter pfloat decimal s = Ok it) lines items /\ matrix_dataset label false None m = Ok d /\
      In (l, c) label_table /\ alone (clocks (2 * i)) fuel (dict_of items) d c (Ok r) /\
      shows_result (JvObj (entry_json e)) r /\
      (forall k, at_path (JvObj (entry_json e)) [k] <> None <-> In k the_keys \/ k = str "diff" /\ q_previous q <> None) /\
      match q_previous q with
      | None => True
      | Some s => exists obj, loads s = Some (JvObj obj) /\ shows_differences (JvObj (entry_json e)) obj r
      end.
  Proof.
    intros E He.
    destruct (answered_spec parse label pfloat decimal DEC ord Ord ltw rnd irrefl T show_nat show_w loads oset Oset show_nat_inj show_w_inj fuel clocks q data ms E) as (lines & items & m & d & PL & FA & Ed & Q).
    destruct Q as (_ & _ & _ & Q & _). destruct (Q _ _ He) as (i & _ & _ & En). clear Q. destruct En as (c & r & Tl & Al & Hf & _ & _ & Hd).
    exists lines, items, m, d, i, c, r. split; [exact PL|]. split; [exact FA|]. split; [exact Ed|]. split; [exact Tl|]. split; [exact Al|].
    assert (G : forall f, f <> FAccuracy -> exists v, dget (we_fields e) f = Some v /\ field_value ltw rnd None r f v).
    { intros f Nf. specialize (Hf f). destruct (dget (we_fields e) f) as [v|]; [eauto|contradiction]. }
    assert (NA : dget (we_fields e) FAccuracy = None).
    { specialize (Hf FAccuracy). destruct (dget (we_fields e) FAccuracy) as [v|]; [|reflexivity]. cbn in Hf. destruct Hf as (? & ? & _). discriminate. }
    assert (At : forall f v ks, dget (we_fields e) f = Some v -> at_path (JvObj (entry_json e)) (field_name f :: ks) = at_path (json_value show_nat show_w json_w v) ks) by (intros; now apply entry_at).
    split; [|split].
    - destruct (G FTime ltac:(discriminate)) as (v1 & D1 & V1). destruct (G FIterations ltac:(discriminate)) as (v2 & D2 & V2). destruct (G FTrust ltac:(discriminate)) as (v3 & D3 & V3).
      destruct (G FBelief ltac:(discriminate)) as (v4 & D4 & V4). destruct (G FTrustStats ltac:(discriminate)) as (v5 & D5 & V5). destruct (G FBeliefStats ltac:(discriminate)) as (v6 & D6 & V6).
      destruct (G FMostBelieved ltac:(discriminate)) as (v7 & D7 & V7). cbn [field_value] in V1, V2, V3, V4, V5, V6, V7. subst v1 v2 v3 v4 v5 v6. destruct V7 as (mb & -> & V7).
      split; [exact (At _ _ [] D1)|]. split.
      { etransitivity; [exact (At _ _ [] D2)|]. cbn [at_path json_value]. now destruct (r_iterations r). }
      split. { intros s. etransitivity; [exact (At _ _ [show_nat s] D3)|]. cbn [json_value]. rewrite at_cons, (dget_mapped show_nat JvNum (r_trust r) s show_nat_inj). unfold trust_of. now destruct (dget (r_trust r) s). }
      split. { intros k H. destruct (dget (map (fun p => (show_nat (fst p), JvNum (snd p))) (r_trust r)) k) as [y|] eqn:Dk.
        - destruct (dget_mapped_inv show_nat JvNum (r_trust r) k y show_nat_inj Dk) as (s & _ & -> & _). eauto.
        - exfalso. apply H. etransitivity; [exact (At _ _ [k] D3)|]. cbn [json_value]. rewrite at_cons, Dk. reflexivity. }
      split. { intros x w. etransitivity; [exact (At _ _ [show_nat x; show_w w] D4)|]. cbn [json_value]. rewrite at_cons. rewrite (dget_mapped show_nat (fun m => JvObj (map (fun q => (show_w (fst q), JvNum (snd q))) m)) (r_belief r) x show_nat_inj).
        unfold belief_of. cbn [fst snd]. match goal with |- match option_map _ ?a with _ => _ end = _ => change a with (dget (r_belief r) x) end. destruct (dget (r_belief r) x) as [m0|]; [|reflexivity]. cbn [option_map]. rewrite at_cons, (dget_mapped show_w JvNum m0 w show_w_inj). now destruct (dget m0 w). }
      split. { intros k k' H. set (g := fun m0 : dict W F => JvObj (map (fun q => (show_w (fst q), JvNum (snd q))) m0)). destruct (dget (map (fun p => (show_nat (fst p), g (snd p))) (r_belief r)) k) as [y|] eqn:Dk.
        - destruct (dget_mapped_inv show_nat g (r_belief r) k y show_nat_inj Dk) as (x & m0 & -> & Dx & ->). destruct (dget (map (fun q => (show_w (fst q), JvNum (snd q))) m0) k') as [z|] eqn:Dk'.
          + destruct (dget_mapped_inv show_w JvNum m0 k' z show_w_inj Dk') as (w & _ & -> & _). eauto.
          + exfalso. apply H. etransitivity; [exact (At _ _ [show_nat x; k'] D4)|]. cbn [json_value]. rewrite at_cons. etransitivity; [exact (f_equal (fun o => match o with Some j => at_path j [k'] | None => None end) Dk)|]. unfold g. rewrite at_cons, Dk'. reflexivity.
        - exfalso. apply H. etransitivity; [exact (At _ _ [k; k'] D4)|]. cbn [json_value]. rewrite at_cons. exact (f_equal (fun o => match o with Some j => at_path j [k'] | None => None end) Dk). }
      split; [exact (At _ _ [str "mean"] D5)|]. split; [exact (At _ _ [str "stddev"] D5)|].
      assert (B : forall x k, at_path (JvObj (entry_json e)) [str "belief_stats"; show_nat x; k] =
         match dget (get_belief_stats r) x with Some p => at_path (JvObj [(str "mean", JvNum (fst p)); (str "stddev", JvNum (snd p))]) [k] | None => None end).
      { intros x k. etransitivity; [exact (At _ _ [show_nat x; k] D6)|]. cbn [json_value]. rewrite at_cons. rewrite (dget_mapped show_nat (fun p => JvObj [(str "mean", JvNum (fst p)); (str "stddev", JvNum (snd p))]) (get_belief_stats r) x show_nat_inj). now destruct (dget (get_belief_stats r) x). }
      split; [intros x; rewrite B; now destruct (dget (get_belief_stats r) x)|]. split; [intros x; rewrite B; now destruct (dget (get_belief_stats r) x)|].
      assert (M : forall x, at_path (JvObj (entry_json e)) [str "most_believed_values"; show_nat x] = option_map (fun l' => JvArr (map json_w l')) (dget mb x)).
      { intros x. etransitivity; [exact (At _ _ [show_nat x] D7)|]. cbn [json_value]. rewrite at_cons. rewrite (dget_mapped show_nat (fun l' => JvArr (map json_w l')) mb x show_nat_inj). now destruct (dget mb x). }
      intros x. specialize (V7 x). rewrite M. destruct (get_most_believed_values r x) as [l0|]; [|now rewrite V7]. destruct V7 as (l' & -> & Pm & _). exists l'. split; [reflexivity|exact Pm].
    - intros k. rewrite at_cons. assert (K : dget (entry_json e) k <> None <-> In k the_keys \/ k = str "diff" /\ we_diff e <> None).
      { rewrite dget_None_iff. unfold WebPage.entry_json, dkeys. rewrite map_app, map_map. rewrite in_app_iff.
        assert (K1 : In k (map (fun x => fst (field_name (fst x), json_value show_nat show_w json_w (snd x))) (we_fields e)) <-> In k the_keys).
        { cbn [fst]. split.
          - intros H. apply in_map_iff in H. destruct H as ([f v] & <- & H). cbn [fst]. destruct f; try (vm_compute; tauto). exfalso. apply dget_None in NA. apply NA. exact (in_map fst _ _ H).
          - intros H. assert (J : forall f, f <> FAccuracy -> In (field_name f) (map (fun x => field_name (fst x)) (we_fields e))).
            { intros f Nf. destruct (G f Nf) as (v & D & _). apply dget_In in D. apply in_map_iff. exists (f, v). split; [reflexivity|exact D]. }
            unfold the_keys in H. repeat (destruct H as [<-|H]; [first [apply (J FTime); discriminate|apply (J FIterations); discriminate|apply (J FTrust); discriminate|apply (J FBelief); discriminate|apply (J FTrustStats); discriminate|apply (J FBeliefStats); discriminate|apply (J FMostBelieved); discriminate]|]). destruct H. }
        rewrite K1. destruct (we_diff e) as [df|]; cbn [map fst In]; [|split; intros [H|H]; auto; [destruct H|destruct H; congruence]].
        split; intros [H|H]; auto; [destruct H as [<-|[]]; right; split; [reflexivity|discriminate]|right; left; symmetry; tauto]. }
      assert (D : we_diff e <> None <-> q_previous q <> None) by (destruct (q_previous q), (we_diff e); try contradiction; split; congruence).
      rewrite D in K. rewrite <- K. destruct (dget (entry_json e) k); [cbn; split; discriminate|tauto].
    - destruct (q_previous q) as [ps|]; [|exact I]. destruct (we_diff e) as [df|] eqn:Df; [|contradiction]. destruct Hd as (obj & t & b & u & it & Lo & (F1 & F2 & F3 & F4) & (X1 & (to & -> & X2) & (bo & -> & X3) & _ & X5)).
      exists obj. split; [exact Lo|].
      assert (Dd : dget (entry_json e) (str "diff") = Some (json_diff df)).
      { unfold WebPage.entry_json. rewrite Df. rewrite dget_app_None.
        - rewrite PropsExperiment.dget_cons, beq_refl. reflexivity.
        - apply dget_None. unfold dkeys. rewrite map_map. cbn [fst]. intros H. apply in_map_iff in H. destruct H as ([f v] & H & _). cbn [fst] in H. destruct f; discriminate H. }
      assert (Ad : forall ks, at_path (JvObj (entry_json e)) (str "diff" :: ks) = at_path (json_diff df) ks) by (intros ks; rewrite at_cons, Dd; reflexivity).
      split; [|split; [|split]].
      + intros k v. rewrite Ad. assert (E1 : at_path (json_diff df) [str "trust"; k] = option_map JvNum (dget (wd_trust df) k)).
        { unfold json_diff. rewrite at_cons. rewrite PropsExperiment.dget_cons, beq_refl. rewrite at_cons. rewrite (dget_mapped (fun k => k) JvNum (wd_trust df) k (fun _ _ H => H)). now destruct (dget (wd_trust df) k). }
        rewrite E1. rewrite at_cons, F1. split.
        * intros H. destruct (dget (wd_trust df) k) as [v0|] eqn:Dk; [|discriminate]. cbn in H. injection H as <-. apply X2 in Dk. destruct Dk as (s & y & j & Ek & Ey & Ej & Em). unfold minus in Em. destruct (number j) as [z|] eqn:Ez; [|discriminate]. cbn in Em. injection Em as <-.
          exists s, y, j, z. repeat split; try assumption. rewrite at_cons, Ej. reflexivity.
        * intros (s & y & x & z & Ek & Ey & Ex & Ez & ->). rewrite at_cons in Ex. destruct (dget to k) as [j|] eqn:Ej; [|discriminate]. cbn in Ex. injection Ex as ->.
          assert (Q : dget (wd_trust df) k = Some (n_sub y z)) by (apply X2; exists s, y, x; repeat split; auto; unfold minus; now rewrite Ez). rewrite Q. reflexivity.
      + intros k k' v. rewrite Ad. assert (E1 : at_path (json_diff df) [str "belief"; k; k'] = match dget (wd_belief df) k with Some m0 => option_map JvNum (dget m0 k') | None => None end).
        { unfold json_diff. rewrite at_cons. rewrite PropsExperiment.dget_cons, beq_neq by discriminate. rewrite PropsExperiment.dget_cons, beq_refl. rewrite at_cons.
          rewrite (dget_mapped (fun k => k) (fun m0 => JvObj (map (fun q => (fst q, JvNum (snd q))) m0)) (wd_belief df) k (fun _ _ H => H)). match goal with |- match option_map _ ?a with _ => _ end = _ => change a with (dget (wd_belief df) k) end. destruct (dget (wd_belief df) k) as [m0|]; [|reflexivity]. cbn [option_map].
          rewrite at_cons, (dget_mapped (fun k => k) JvNum m0 k' (fun _ _ H => H)). now destruct (dget m0 k'). }
        rewrite E1. rewrite at_cons, F2. split.
        * intros H. destruct (dget (wd_belief df) k) as [m0|] eqn:Dk; [|discriminate]. destruct (dget m0 k') as [v0|] eqn:Dk'; [|discriminate]. cbn in H. injection H as <-.
          destruct (proj1 (X3 k k' v0)) as (x & w & y & m1 & mo & j & Ek & Ek' & Ex & Ey & Eb & Ej & Em); [exists m0; auto|]. unfold minus in Em. destruct (number j) as [z|] eqn:Ez; [|discriminate]. cbn in Em. injection Em as <-.
          exists x, w, y, j, z. repeat split; try assumption; [unfold belief_of; cbn [fst snd]; rewrite Ex; exact Ey|]. rewrite at_cons, Eb, at_cons, Ej. reflexivity.
        * intros (x & w & y & u0 & z & Ek & Ek' & Ey & Eu & Ez & ->). unfold belief_of in Ey. cbn [fst snd] in Ey. destruct (dget (r_belief r) x) as [m1|] eqn:Ex; [|discriminate].
          rewrite at_cons in Eu. destruct (dget bo k) as [jb|] eqn:Eb; [|discriminate]. destruct jb as [| | | | |mo]; try discriminate. rewrite at_cons in Eu. destruct (dget mo k') as [j|] eqn:Ej; [|discriminate]. cbn in Eu. injection Eu as ->.
          destruct (proj2 (X3 k k' (n_sub y z))) as (m0 & -> & ->); [|reflexivity]. exists x, w, y, m1, mo, u0. repeat split; auto. unfold minus. now rewrite Ez.
      + unfold minus in X1. destruct (number u) as [z|] eqn:Ez; [|discriminate]. cbn in X1. injection X1 as X1. exists u, z. rewrite at_cons, F3. repeat split; [exact Ez|]. rewrite Ad, <- X1. reflexivity.
      + exists it. rewrite at_cons, F4. split; [reflexivity|]. rewrite Ad. assert (Q : wd_iterations df = match r_iterations r, number it with Some n, Some z => Some (n_sub (n_ofZ (Z.of_nat n)) z) | _, _ => None end).
        { rewrite X5. destruct (r_iterations r); [|reflexivity]. unfold minus. now destruct (number it). }
        rewrite <- Q. reflexivity.
  Qed.
End C97.

(** * C98: the built-in datasets *)
Section C98.
  Context {C : Type}.
  (** the number n, as a JavaScript value *)
  Variable num : nat -> C.
  Hypothesis num_inj : forall a b, num a = num b -> a = b.
  Notation presets := (preset_datasets num).
  Notation str := lit_str.
  (** the table has the given size, and says exactly what is listed: (source, variable, number) *)
  Definition says (m : matrix C) (r c : nat) (l : list (nat * nat * nat)) : Prop :=
    table r c m /\ forall i j v, cell m i j = Some v <-> exists n, In (i, j, n) l /\ v = num n.

  Lemma cell_out r c (m : matrix C) i j : table r c m -> r <= i \/ c <= j -> cell m i j = None.
  Proof.
    intros [L W] H. unfold cell. destruct (nth_error m i) as [row|] eqn:E; [|reflexivity]. pose proof (W row (nth_error_In _ _ E)) as Lr.
    assert (i < length m) by (apply nth_error_Some; congruence). rewrite (proj2 (nth_error_None row j)) by lia. reflexivity.
  Qed.
  Definition cells (l : list (nat * nat * nat)) (i j : nat) : option C :=
    match find (fun t => Nat.eqb (fst (fst t)) i && Nat.eqb (snd (fst t)) j) l with Some t => Some (num (snd t)) | None => None end.
  Lemma says_intro r c m l : table r c m -> (forall t, In t l -> fst (fst t) < r /\ snd (fst t) < c) -> NoDup (map fst l) ->
    (forall i j, i < r -> j < c -> cell m i j = cells l i j) -> says m r c l.
  Proof.
    intros Tb B ND H. split; [exact Tb|]. intros i j v.
    assert (Q : cells l i j = Some v <-> exists n, In (i, j, n) l /\ v = num n).
    { unfold cells. destruct (find _ l) as [[[a b] n]|] eqn:Ef.
      - apply find_some in Ef. destruct Ef as [Hi He]. cbn [fst snd] in *. apply Bool.andb_true_iff in He. destruct He as [Ea Eb]. apply Nat.eqb_eq in Ea, Eb. subst a b. split; [intros [= <-]; eauto|].
        intros (n' & Hn & ->). do 2 f_equal. clear - ND Hi Hn. induction l as [|[p k] l IH]; [destruct Hi|]. cbn [map fst] in ND. inversion ND; subst. destruct Hi as [Hi|Hi], Hn as [Hn|Hn].
        + congruence.
        + exfalso. injection Hi as -> ->. apply H1. exact (in_map fst _ _ Hn).
        + exfalso. injection Hn as -> ->. apply H1. exact (in_map fst _ _ Hi).
        + exact (IH H2 Hi Hn).
      - split; [discriminate|]. intros (n & Hn & _). exfalso. pose proof (find_none _ _ Ef _ Hn) as Q. cbn [fst snd] in Q. rewrite !Nat.eqb_refl in Q. discriminate. }
    destruct (Nat.lt_ge_cases i r) as [Hi|Hi], (Nat.lt_ge_cases j c) as [Hj|Hj].
    - now rewrite H.
    - rewrite (cell_out r c) by auto. split; [discriminate|]. intros (n & Hn & _). destruct (B _ Hn) as [_ Q']. cbn in Q'. lia.
    - rewrite (cell_out r c) by auto. split; [discriminate|]. intros (n & Hn & _). destruct (B _ Hn) as [Q' _]. cbn in Q'. lia.
    - rewrite (cell_out r c) by auto. split; [discriminate|]. intros (n & Hn & _). destruct (B _ Hn) as [_ Q']. cbn in Q'. lia.
  Qed.
  Ltac below i H := repeat (destruct i as [|i]; [|try (exfalso; lia)]).
  Ltac listed := 
    apply says_intro;
    [ split; [reflexivity|]; intros row Hr; cbn in Hr; repeat destruct Hr as [<-|Hr]; try reflexivity; destruct Hr
    | intros t Ht; cbn in Ht; repeat destruct Ht as [<-|Ht]; try (cbn; lia); destruct Ht
    | repeat constructor; cbn; intuition discriminate
    | intros i j Hi Hj; below i Hi; below j Hj; reflexivity ].

  Definition standard_claims := [(0,0,1); (0,2,3); (0,3,4); (1,0,2); (1,1,2); (2,2,5); (2,3,2); (3,0,1); (3,1,2); (3,2,5)].
  Definition all_but_one_claims := [(0,0,1); (0,1,2); (0,2,3); (0,3,4); (1,0,1); (1,1,2); (1,2,3); (1,3,4); (2,0,1); (2,1,2); (2,2,3); (2,3,4); (3,0,9); (3,1,8); (3,2,7); (3,3,6)].
  Definition groups_claims := [(0,0,1); (0,1,2); (1,0,1); (1,1,3); (2,2,11); (2,3,12); (3,2,10)].
  Definition no_agreement_claims := [(0,1,2); (0,2,3); (1,0,4); (1,1,5); (2,1,8); (2,2,9); (3,0,10); (3,1,11); (3,2,12)].
  (** there are four, with these names and these claims; the page opens with the first, its dialogue closed and empty *)
  Theorem C98_presets :
    dkeys presets = [str "standard"; str "all_but_one_agree"; str "indep_groups"; str "no_agreement"] /\
    (exists m, dget presets (str "standard") = Some m /\ says m 4 4 standard_claims) /\
    (exists m, dget presets (str "all_but_one_agree") = Some m /\ says m 4 4 all_but_one_claims) /\
    (exists m, dget presets (str "indep_groups") = Some m /\ says m 4 4 groups_claims) /\
    (exists m, dget presets (str "no_agreement") = Some m /\ says m 4 3 no_agreement_claims) /\
    dget presets (str "standard") = Some (fm_matrix (new_form num)) /\ fm_open (new_form num) = false /\ fm_error (new_form num) = false /\ fm_textarea (new_form num) = [].
  Proof.
    split; [reflexivity|]. split; [eexists; split; [reflexivity|listed]|]. split; [eexists; split; [reflexivity|listed]|]. split; [eexists; split; [reflexivity|listed]|]. split; [eexists; split; [reflexivity|listed]|].
    repeat split.
  Qed.

  (** ... and they are as their descriptions say *)
  (** sources i and i' agree on variable j *)
  Definition agree (m : matrix C) (i i' j : nat) : Prop := i <> i' /\ exists v, cell m i j = Some v /\ cell m i' j = Some v.
  Definition disagree (m : matrix C) (i i' j : nat) : Prop := exists v v', cell m i j = Some v /\ cell m i' j = Some v' /\ v <> v'.
  (** "A typical dataset with a mixture of agreements, disagreements and missing values" *)
  Theorem C98_standard m : dget presets (str "standard") = Some m -> (exists i i' j, agree m i i' j) /\ (exists i i' j, disagree m i i' j) /\ (exists i j, i < 4 /\ j < 4 /\ cell m i j = None).
  Proof.
    intros H. injection H as <-. split; [exists 0, 3, 0; split; [lia|]; eexists; split; reflexivity|]. split; [exists 0, 1, 0; eexists _, _; split; [reflexivity|]; split; [reflexivity|]; intros Q; apply num_inj in Q; discriminate|].
    exists 0, 1. repeat split; lia.
  Qed.
  (** "Dataset where all sources but one agree on each variable" *)
  Theorem C98_all_but_one m : dget presets (str "all_but_one_agree") = Some m -> forall j, j < 4 -> exists i0, i0 < 4 /\
    (forall i i', i < 4 -> i' < 4 -> i <> i0 -> i' <> i0 -> i <> i' -> agree m i i' j) /\ (forall i, i < 4 -> i <> i0 -> disagree m i i0 j).
  Proof.
    intros H. injection H as <-. intros j Hj. exists 3. split; [lia|]. split.
    - intros i i' Hi Hi' N N' D. split; [exact D|]. below i Hi; try lia; below i' Hi'; try lia; below j Hj; eexists; split; reflexivity.
    - intros i Hi N. below i Hi; try lia; below j Hj; (eexists _, _; split; [reflexivity|]; split; [reflexivity|]; intros Q; apply num_inj in Q; discriminate).
  Qed.
  (** "Dataset where sources and variables are split into two independent groups": no claim is about a variable of the other group *)
  Theorem C98_indep_groups m : dget presets (str "indep_groups") = Some m -> exists in_first var_in_first : nat -> bool,
    (forall i j v, cell m i j = Some v -> in_first i = var_in_first j) /\
    (forall b, exists i i' j j', i <> i' /\ j <> j' /\ in_first i = b /\ in_first i' = b /\ var_in_first j = b /\ var_in_first j' = b /\
       cell m i j <> None /\ cell m i j' <> None /\ cell m i' j <> None).
  Proof.
    intros H. assert (Q : m = [[Some (num 1); Some (num 2); None; None]; [Some (num 1); Some (num 3); None; None]; [None; None; Some (num 11); Some (num 12)]; [None; None; Some (num 10); None]]) by (injection H as <-; reflexivity). clear H. subst m.
    exists (fun i => i <? 2), (fun j => j <? 2). split.
    - intros i j v H. destruct i as [|[|[|[|i]]]]; destruct j as [|[|[|[|j]]]]; try reflexivity; exfalso; try discriminate H; unfold cell in H; cbn in H; try (destruct i; discriminate H); destruct j; discriminate H.
    - intros [|]; [exists 0, 1, 0, 1|exists 2, 3, 2, 3]; cbn; repeat split; try lia; discriminate.
  Qed.
  (** "Dataset where no sources agree with each other" *)
  Theorem C98_no_agreement m : dget presets (str "no_agreement") = Some m -> forall i i' j, ~ agree m i i' j.
  Proof.
    intros H. assert (Q : m = [[None; Some (num 2); Some (num 3)]; [Some (num 4); Some (num 5); None]; [None; Some (num 8); Some (num 9)]; [Some (num 10); Some (num 11); Some (num 12)]]) by (injection H as <-; reflexivity). clear H. subst m.
    intros i i' j (D & v & H1 & H2). destruct (C98_presets) as (_ & _ & _ & _ & (m & E & [_ S]) & _). injection E as <-.
    apply S in H1. destruct H1 as (n1 & H1 & ->). apply S in H2. destruct H2 as (n2 & H2 & E). apply num_inj in E. subst n2. clear S.
    unfold no_agreement_claims in H1, H2. cbn [In] in H1, H2. 
    repeat match goal with H : _ \/ _ |- _ => destruct H end; try contradiction;
    repeat match goal with H : (_, _) = (_, _) |- _ => injection H; clear H; intros; subst end; try discriminate; apply D; congruence.
  Qed.
End C98.

(** * Non-vacuity *)
Module JsonExamples.
  Import CsvExamples ClientExamples CliExamples WebExamples PageExamples.
  Section AnyTrig.
    Variables (T : trig XR) (clocks : nat -> nat -> nat -> XR) (toFixed10 : XR -> pystr) (json_w : nat -> jval (F:=XR)) (stringify : jval (F:=XR) -> pystr).
    Notation page loads := (web_run parse1 (fun n : nat => n) pf ascii_decimal ident Nat.ltb (fun _ => 0) T show1 show1 loads ident).
    (** the first answer, and a second one with differences *)
    Example first_answer_json loads : exists data ms e, page loads (clocks 0) 100 (sent_request None) = R200 data ms /\ dget data (lit_str "sums") = Some e /\
      exists x, at_path (JvObj (entry_json show1 show1 json_w e)) [lit_str "time"] = Some (JvNum x).
    Proof.
      destruct (first_answer T clocks toFixed10 json_w stringify loads 0) as (data & ms & e & R & D). exists data, ms, e. split; [exact R|]. split; [exact D|].
      destruct (C97_answer parse1 (fun n : nat => n) pf ascii_decimal ascii_ok ident ident_ok Nat.ltb (fun _ => 0) xr_irrefl T show1 show1 loads ident ident_ok' show1_inj show1_inj json_w (clocks 0) 100 _ _ _ _ _ R D)
        as (lines & items & m & d & i & c & r & _ & _ & _ & _ & _ & (Q & _) & _). eauto.
    Qed.
    Example second_answer_json : exists loads k q data ms e s, page loads (clocks k) 100 q = R200 data ms /\ dget data (lit_str "sums") = Some e /\ q_previous q = Some s /\
      exists x, at_path (JvObj (entry_json show1 show1 json_w e)) [lit_str "diff"; lit_str "time_taken"] = Some (JvNum x).
    Proof.
      destruct (twice T clocks toFixed10 json_w stringify) as (loads & h & sv & data0 & ms0 & e0 & data & ms & e & df & q & sv' & _ & _ & _ & _ & A & D & Df).
      unfold press_run in A. destruct (make_request toFixed10 stringify (sv_previous sv) the_press) as [q1|]; [|discriminate]. injection A as -> R _.
      destruct (C97_answer parse1 (fun n : nat => n) pf ascii_decimal ascii_ok ident ident_ok Nat.ltb (fun _ => 0) xr_irrefl T show1 show1 loads ident ident_ok' show1_inj show1_inj json_w (clocks (List.length h)) 100 _ _ _ _ _ R D)
        as (lines & items & m & d & i & c & r & _ & _ & _ & _ & _ & _ & K & Q).
      assert (Kd : at_path (JvObj (entry_json show1 show1 json_w e)) [lit_str "diff"] <> None).
      { unfold entry_json. rewrite Df. rewrite at_cons. assert (In (lit_str "diff") (dkeys (map (fun p => (field_name (fst p), json_value show1 show1 json_w (snd p))) (we_fields e) ++ [(lit_str "diff", json_diff df)]))) as H by (unfold dkeys; rewrite map_app; apply in_or_app; right; now left).
        apply dget_None_iff in H. intros N. apply H. destruct (dget _ (lit_str "diff")); [discriminate|reflexivity]. }
      apply K in Kd. destruct Kd as [Kd|[_ Kd]]; [exfalso; vm_compute in Kd; repeat destruct Kd as [Kd|Kd]; try discriminate; exact Kd|].
      destruct (q_previous q) as [s|] eqn:Eq; [|congruence]. destruct Q as (obj & _ & _ & _ & (u & z & _ & _ & Q) & _).
      exists loads, (List.length h), q, data, ms, e, s. eauto 10.
    Qed.
  End AnyTrig.
  Example numbers_differ : forall a b : nat, (fun n => n) a = (fun n => n) b -> a = b.
  Proof. auto. Qed.
End JsonExamples.
