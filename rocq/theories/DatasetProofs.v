(** The constructor of Dataset computes the label-level description of Spec.v. *)
From Verif Require Import Base Num Sparse Spec Dataset.

(** ** Id maps of a list of labels *)
Section IdMaps.
  Context {L : Type} {EL : Eqb L}.
  Definition ids (l : list L) : idmap L := combine l (seq 0 (length l)).
  Lemma ids_fst l : map fst (ids l) = l.
  Proof.
    unfold ids. generalize 0. induction l as [|x t IH]; cbn; intros n; [reflexivity|]. f_equal. apply IH.
  Qed.
  Lemma ids_snd l : map snd (ids l) = seq 0 (length l).
  Proof.
    unfold ids. generalize 0. induction l as [|x t IH]; cbn; intros n; [reflexivity|]. f_equal. apply IH.
  Qed.
  Lemma ids_length l : length (ids l) = length l.
  Proof. rewrite <- (map_length fst), ids_fst. reflexivity. Qed.
  Lemma ids_snoc l a : ids (l ++ [a]) = ids l ++ [(a, length l)].
  Proof.
    unfold ids. change (length l) with (0 + length l) at 2. generalize 0.
    induction l as [|x t IH]; cbn; intros n; [now rewrite Nat.add_0_r|].
    f_equal. rewrite IH. now rewrite Nat.add_succ_r.
  Qed.
  Lemma dget_ids l a : dget (ids l) a = if mem a l then Some (pos a l) else None.
  Proof.
    unfold ids. change (Some (pos a l)) with (Some (0 + pos a l)). generalize 0.
    induction l as [|x t IH]; cbn; intros n; [reflexivity|].
    unfold mem; cbn. destruct (beq_spec a x) as [->|N]; cbn; [now rewrite Nat.add_0_r|].
    rewrite IH. unfold mem. destruct (existsb (beq a) t); [|reflexivity]. now rewrite Nat.add_succ_r.
  Qed.
  Lemma inverse_ids l i : inverse (ids l) i = nth_error l i.
  Proof.
    unfold inverse, ids. assert (G : forall n, option_map fst (find (fun p => snd p =? n + i) (combine l (seq n (length l)))) = nth_error l i).
    { revert i. induction l as [|x t IH]; cbn; intros i n; [now destruct i|].
      destruct i as [|i]; cbn.
      - now rewrite Nat.add_0_r, Nat.eqb_refl.
      - destruct (Nat.eqb_spec n (n + S i)); [lia|]. rewrite <- (IH i (S n)). now rewrite Nat.add_succ_r. }
    exact (G 0).
  Qed.
  Definition grow (l : list L) (a : L) : list L := if mem a l then l else l ++ [a].
  Lemma get_id_ids l a : get_id (ids l) a = Some (ids (grow l a), pos a (grow l a)).
  Proof.
    unfold get_id, grow. rewrite ids_fst. destruct (mem a l) eqn:E.
    - now rewrite dget_ids, E.
    - unfold bd_put. rewrite ids_snd, ids_length.
      assert (M : mem (length l) (seq 0 (length l)) = false) by (apply mem_false; rewrite in_seq; lia).
      rewrite M, <- ids_snoc, dget_ids, mem_app, E. cbn. rewrite beq_refl. reflexivity.
  Qed.
  Lemma grow_In l a : In a (grow l a).
  Proof. unfold grow. destruct (mem a l) eqn:E; [now apply mem_In|]. apply in_app_iff. right. now left. Qed.
  Lemma grow_incl l a b : In b l -> In b (grow l a).
  Proof. unfold grow. destruct (mem a l); auto. intros. apply in_app_iff. now left. Qed.
  Lemma grow_In_iff l a b : In b (grow l a) <-> In b l \/ b = a.
  Proof.
    unfold grow. destruct (mem a l) eqn:E.
    - apply mem_In in E. intuition (subst; auto).
    - rewrite in_app_iff. cbn. intuition (subst; auto).
  Qed.
  Lemma grow_pos l a b : In b l -> pos b (grow l a) = pos b l.
  Proof. unfold grow. destruct (mem a l); auto. intros. now apply pos_app. Qed.
  Lemma grow_nth l a i b : nth_error l i = Some b -> nth_error (grow l a) i = Some b.
  Proof.
    unfold grow. destruct (mem a l); auto. intros H. rewrite nth_error_app1; [assumption|].
    apply nth_error_Some. congruence.
  Qed.
  Lemma distinct_grow l a : distinct (l ++ [a]) = grow (distinct l) a.
  Proof.
    rewrite distinct_snoc. unfold grow. destruct (mem a l) eqn:E.
    - apply mem_In, distinct_In, mem_In in E. now rewrite E.
    - apply mem_false in E. rewrite <- distinct_In in E. apply mem_false in E. now rewrite E.
  Qed.
  Lemma nth_error_pos_iff l i a : NoDup l -> (nth_error l i = Some a <-> In a l /\ i = pos a l).
  Proof.
    intros ND. split.
    - intros H. split; [now apply nth_error_In in H|]. symmetry. now apply pos_nth_error.
    - intros [H ->]. now apply nth_error_pos.
  Qed.
End IdMaps.

Section Proofs.
  Context {S V W : Type} {ES : Eqb S} {EV : Eqb V} {EW : Eqb W} {F : Num}.
  Notation triple := (S * V * W)%type.
  Notation claim := (V * W)%type.
  Implicit Types (ts pre : list triple) (c : claim).

  (** (variable id, value hash) of a claim *)
  Definition enc (xs : list V) (ws : list W) (c : claim) : nat * nat := (pos (fst c) xs, pos (snd c) ws).

  Lemma says_app_old pre t s c : In (s, fst c) (sv_pairs pre) -> says (pre ++ [t]) s c = says pre s c.
  Proof.
    intros H. unfold says. rewrite first_claim_app. destruct (first_claim pre s (fst c)) eqn:E; [reflexivity|].
    apply first_claim_None in E. contradiction.
  Qed.
  Lemma says_filter_old pre t :
    filter (fun u => says (pre ++ [t]) (t_src u) (t_claim u)) pre = filter (fun u => says pre (t_src u) (t_claim u)) pre.
  Proof.
    apply filter_ext_in. intros [[s x] v] Hu. apply says_app_old. cbn. apply in_map_iff. now exists (s, x, v).
  Qed.
  Lemma first_claim_one (t : triple) : first_claim [t] (t_src t) (t_var t) = Some (t_val t).
  Proof. unfold first_claim. cbn. now rewrite !beq_refl. Qed.
  Lemma claims_snoc pre (t : triple) :
    claims (pre ++ [t]) =
    match first_claim pre (t_src t) (t_var t) with
    | Some _ => claims pre
    | None => grow (claims pre) (t_claim t)
    end.
  Proof.
    unfold claims. rewrite filter_app, says_filter_old. cbn [filter].
    destruct (first_claim pre (t_src t) (t_var t)) as [v'|] eqn:E.
    - destruct (says (pre ++ [t]) (t_src t) (t_claim t)) eqn:Hs.
      + rewrite map_app. cbn [map]. rewrite distinct_grow. unfold grow.
        assert (M : mem (t_claim t) (distinct (map t_claim (filter (fun u => says pre (t_src u) (t_claim u)) pre))) = true).
        { apply mem_In. change (In (t_claim t) (claims pre)). apply claims_In. exists (t_src t).
          rewrite <- Hs. symmetry. apply says_app_old. cbn.
          destruct (first_claim_None pre (t_src t) (t_var t)) as [_ H].
          destruct (in_dec eq_dec_of (t_src t, t_var t) (sv_pairs pre)) as [?|N]; [assumption|].
          rewrite (H N) in E. discriminate. }
        now rewrite M.
      + now rewrite app_nil_r.
    - assert (Hs : says (pre ++ [t]) (t_src t) (t_claim t) = true).
      { apply says_true. cbn [t_claim fst snd]. rewrite first_claim_app, E. apply first_claim_one. }
      rewrite Hs, map_app. cbn [map]. now rewrite distinct_grow.
  Qed.
  Lemma says_snoc pre (t : triple) s c :
    says (pre ++ [t]) s c =
    match first_claim pre s (fst c) with
    | Some _ => says pre s c
    | None => beq s (t_src t) && beq c (t_claim t)
    end.
  Proof.
    unfold says. rewrite first_claim_app. destruct (first_claim pre s (fst c)) as [v|]; [reflexivity|].
    destruct t as [[s' x'] v'], c as [x w]. unfold first_claim. cbn. unfold t_src, t_var, t_val; cbn.
    unfold pair_beq; cbn. rewrite (beq_sym s s'), (beq_sym x x').
    destruct (beq_spec s' s); cbn; [|reflexivity].
    destruct (beq_spec x' x); cbn; [|reflexivity]. apply beq_sym.
  Qed.

  (** The state of the constructor after reading [pre] without error. *)
  Record Inv (pre : list triple) (st : dstate S V W) : Prop := {
    inv_src : d_source_ids st = ids (sources pre);
    inv_var : d_var_ids st = ids (variables pre);
    inv_val : d_val_hashes st = ids (values pre);
    inv_cl : d_claim_ids st = ids (map (enc (variables pre) (values pre)) (claims pre));
    inv_pairs : forall i k, In (i, k) (d_pairs st) <->
      exists s x, nth_error (sources pre) i = Some s /\ nth_error (variables pre) k = Some x /\ first_claim pre s x <> None;
    inv_sc : forall i j, In (i, j) (d_sc st) <->
      exists s c, nth_error (sources pre) i = Some s /\ nth_error (claims pre) j = Some c /\ says pre s c = true;
    inv_sc_nd : NoDup (d_sc st);
    inv_mut_nd : NoDup (dkeys (d_mut st));
    inv_mut : forall k l, In (k, l) (d_mut st) -> NoDup l /\
      forall j, In j l <-> exists x w, nth_error (variables pre) k = Some x /\ nth_error (claims pre) j = Some (x, w);
    inv_mut_keys : forall k, In k (dkeys (d_mut st)) <-> k < length (variables pre)
  }.

  Lemma Inv_init : Inv [] dinit.
  Proof.
    constructor; cbn; auto using NoDup_nil.
    - intros i k. split; [tauto|]. intros (s & x & H & _). now destruct i.
    - intros i k. split; [tauto|]. intros (s & x & H & _). now destruct i.
    - tauto.
    - intros k. split; [tauto|lia].
  Qed.

  Lemma sources_snoc pre (t : triple) : sources (pre ++ [t]) = grow (sources pre) (t_src t).
  Proof. unfold sources. rewrite map_app. apply distinct_grow. Qed.
  Lemma variables_snoc pre (t : triple) : variables (pre ++ [t]) = grow (variables pre) (t_var t).
  Proof. unfold variables. rewrite map_app. apply distinct_grow. Qed.
  Lemma values_snoc pre (t : triple) : values (pre ++ [t]) = grow (values pre) (t_val t).
  Proof. unfold values. rewrite map_app. apply distinct_grow. Qed.

  Lemma enc_inj xs ws c c' : In (fst c) xs -> In (snd c) ws -> In (fst c') xs -> In (snd c') ws ->
    enc xs ws c = enc xs ws c' -> c = c'.
  Proof.
    intros H1 H2 H3 H4 E. unfold enc in E. injection E as E1 E2. destruct c, c'; cbn in *.
    f_equal; eapply pos_inj; eassumption.
  Qed.
  Lemma enc_grow pre (t : triple) c : In c (claims pre) ->
    enc (variables (pre ++ [t])) (values (pre ++ [t])) c = enc (variables pre) (values pre) c.
  Proof.
    intros H. unfold enc. rewrite variables_snoc, values_snoc.
    now rewrite !grow_pos by (now apply claims_var || now apply claims_val).
  Qed.
  Lemma pos_map_enc xs ws (cs : list claim) c :
    (forall c, In c cs -> In (fst c) xs /\ In (snd c) ws) -> In (fst c) xs -> In (snd c) ws ->
    mem (enc xs ws c) (map (enc xs ws) cs) = mem c cs /\ pos (enc xs ws c) (map (enc xs ws) cs) = pos c cs.
  Proof.
    intros H Hx Hw. induction cs as [|a r IH]; [split; reflexivity|]. cbn [map].
    assert (E : beq (enc xs ws c) (enc xs ws a) = beq c a).
    { destruct (beq_spec c a) as [->|N]; [apply beq_refl|]. apply beq_neq. intros E. apply N.
      eapply enc_inj; try eassumption; apply H; now left. }
    destruct IH as [I1 I2]; [intros; apply H; now right|]. split.
    - unfold mem in *. cbn [existsb]. now rewrite E, I1.
    - cbn [pos]. now rewrite E, I2.
  Qed.

  (* inside the loop: is the (source, variable) pair recorded? *)
  Lemma inv_pair_mem pre st (t : triple) : Inv pre st ->
    mem (pos (t_src t) (sources (pre ++ [t])), pos (t_var t) (variables (pre ++ [t]))) (d_pairs st) =
    match first_claim pre (t_src t) (t_var t) with Some _ => true | None => false end.
  Proof.
    intros I. rewrite sources_snoc, variables_snoc.
    destruct (first_claim pre (t_src t) (t_var t)) as [v|] eqn:E.
    - apply mem_In, (inv_pairs _ _ I). exists (t_src t), (t_var t).
      pose proof (first_claim_In _ _ _ _ E) as Hin.
      assert (Hs : In (t_src t) (sources pre)) by (apply sources_In; eauto).
      assert (Hx : In (t_var t) (variables pre)) by (apply variables_In; eauto).
      rewrite !grow_pos by assumption. rewrite !nth_error_pos by assumption. rewrite E. repeat split. discriminate.
    - apply mem_false. intros H. apply (inv_pairs _ _ I) in H. destruct H as (s & x & H1 & H2 & H3).
      apply (grow_nth _ (t_src t)) in H1. apply (grow_nth _ (t_var t)) in H2.
      rewrite nth_error_pos in H1 by apply grow_In. rewrite nth_error_pos in H2 by apply grow_In.
      congruence.
  Qed.

  Lemma dstep_dup pre st (t : triple) v : Inv pre st -> first_claim pre (t_src t) (t_var t) = Some v ->
    dstep false st t = Err (MultipleClaims (t_src t) (t_var t)).
  Proof.
    intros I E. unfold dstep. rewrite (inv_src _ _ I), (inv_var _ _ I), (inv_val _ _ I), !get_id_ids. cbn -[ids].
    rewrite <- sources_snoc, <- variables_snoc. rewrite (inv_pair_mem pre st t I), E.
    rewrite !inverse_ids, !nth_error_pos; [reflexivity| |].
    - rewrite variables_snoc. apply grow_In.
    - rewrite sources_snoc. apply grow_In.
  Qed.

  Lemma dstep_skip pre st (t : triple) v : Inv pre st -> first_claim pre (t_src t) (t_var t) = Some v ->
    exists st', dstep true st t = Ok st' /\ Inv (pre ++ [t]) st'.
  Proof.
    intros I E. unfold dstep. rewrite (inv_src _ _ I), (inv_var _ _ I), (inv_val _ _ I), !get_id_ids. cbn -[ids].
    rewrite <- sources_snoc, <- variables_snoc, <- values_snoc. rewrite (inv_pair_mem pre st t I), E.
    eexists. split; [reflexivity|].
    pose proof (first_claim_In _ _ _ _ E) as Hin.
    assert (Hs : In (t_src t) (sources pre)) by (apply sources_In; eauto).
    assert (Hx : In (t_var t) (variables pre)) by (apply variables_In; eauto).
    assert (ES' : sources (pre ++ [t]) = sources pre).
    { rewrite sources_snoc. unfold grow. apply mem_In in Hs. now rewrite Hs. }
    assert (EV' : variables (pre ++ [t]) = variables pre).
    { rewrite variables_snoc. unfold grow. apply mem_In in Hx. now rewrite Hx. }
    assert (EC' : claims (pre ++ [t]) = claims pre) by (now rewrite claims_snoc, E).
    assert (EF : forall s x, first_claim (pre ++ [t]) s x = first_claim pre s x).
    { intros s x. rewrite first_claim_app. destruct (first_claim pre s x) eqn:Ef; [reflexivity|].
      unfold first_claim. cbn. destruct (beq_spec (t_src t) s) as [Q1|]; [|reflexivity].
      destruct (beq_spec (t_var t) x) as [Q2|]; [|reflexivity]. congruence. }
    assert (ESy : forall s c, says (pre ++ [t]) s c = says pre s c) by (intros; unfold says; now rewrite EF).
    constructor; cbn -[ids]; try reflexivity.
    - rewrite EC', (inv_cl _ _ I). f_equal. apply map_ext_in. intros c Hc. symmetry. now apply enc_grow.
    - intros i k. rewrite (inv_pairs _ _ I), ES', EV'. now setoid_rewrite EF.
    - intros i j. rewrite (inv_sc _ _ I), ES', EC'. now setoid_rewrite ESy.
    - apply (inv_sc_nd _ _ I).
    - apply (inv_mut_nd _ _ I).
    - intros k l H. rewrite EV', EC'. now apply (inv_mut _ _ I).
    - intros k. rewrite EV'. apply (inv_mut_keys _ _ I).
  Qed.

  Lemma dstep_new b pre st (t : triple) : Inv pre st -> first_claim pre (t_src t) (t_var t) = None ->
    exists st', dstep b st t = Ok st' /\ Inv (pre ++ [t]) st'.
  Proof.
    intros I E. unfold dstep. rewrite (inv_src _ _ I), (inv_var _ _ I), (inv_val _ _ I), !get_id_ids. cbn -[ids].
    rewrite <- sources_snoc, <- variables_snoc, <- values_snoc. rewrite (inv_pair_mem pre st t I), E.
    set (pre' := pre ++ [t]) in *.
    set (xs := variables pre'). set (ws := values pre'). set (ss := sources pre').
    assert (Ecl : d_claim_ids st = ids (map (enc xs ws) (claims pre))).
    { rewrite (inv_cl _ _ I). f_equal. apply map_ext_in. intros c Hc. symmetry. now apply enc_grow. }
    assert (HxIn : In (t_var t) xs) by (unfold xs, pre'; rewrite variables_snoc; apply grow_In).
    assert (HwIn : In (t_val t) ws) by (unfold ws, pre'; rewrite values_snoc; apply grow_In).
    assert (HsIn : In (t_src t) ss) by (unfold ss, pre'; rewrite sources_snoc; apply grow_In).
    assert (Hcl : forall c, In c (claims pre') -> In (fst c) xs /\ In (snd c) ws).
    { intros c Hc. split; [now apply claims_var|now apply claims_val]. }
    assert (EC : claims pre' = grow (claims pre) (t_claim t)) by (unfold pre'; now rewrite claims_snoc, E).
    assert (Hcl0 : forall c, In c (claims pre) -> In (fst c) xs /\ In (snd c) ws).
    { intros c Hc. apply Hcl. rewrite EC. now apply grow_incl. }
    change (pos (t_var t) xs, pos (t_val t) ws) with (enc xs ws (t_claim t)).
    rewrite Ecl, get_id_ids. cbn -[ids].
    assert (EG : grow (map (enc xs ws) (claims pre)) (enc xs ws (t_claim t)) = map (enc xs ws) (claims pre')).
    { unfold grow. rewrite (proj1 (pos_map_enc xs ws (claims pre) (t_claim t) Hcl0 HxIn HwIn)), EC.
      unfold grow. destruct (mem (t_claim t) (claims pre)); [reflexivity|]. now rewrite map_app. }
    rewrite EG, (proj2 (pos_map_enc xs ws (claims pre') (t_claim t) Hcl HxIn HwIn)).
    set (vi := pos (t_var t) xs). set (cj := pos (t_claim t) (claims pre')). set (si := pos (t_src t) ss).
    set (mut := if dmem (d_mut st) vi then d_mut st else dset (d_mut st) vi []).
    assert (Hmut : exists cs, dget mut vi = Some cs /\ NoDup (dkeys mut) /\ NoDup cs /\
        (forall j, In j cs <-> exists w, nth_error (claims pre) j = Some (t_var t, w)) /\
        (forall k l, In (k, l) mut -> k <> vi -> In (k, l) (d_mut st)) /\
        (forall k, In k (dkeys mut) <-> k < length xs)).
    { pose proof (inv_mut_keys _ _ I) as HK. unfold mut, dmem.
      assert (Exs : xs = grow (variables pre) (t_var t)) by apply variables_snoc.
      assert (Evi0 : vi = pos (t_var t) (grow (variables pre) (t_var t))) by (unfold vi; now rewrite Exs).
      rewrite Exs.
      destruct (mem vi (dkeys (d_mut st))) eqn:M.
      - apply mem_In in M. pose proof M as Mk. apply HK in M.
        assert (Ex : In (t_var t) (variables pre)).
        { pose proof M as M'. apply nth_error_Some in M'. destruct (nth_error (variables pre) vi) as [y|] eqn:Ey; [|congruence].
          apply (grow_nth _ (t_var t)) in Ey. rewrite Evi0 in Ey. rewrite nth_error_pos in Ey by apply grow_In.
          injection Ey as <-. rewrite Evi0 in M. unfold grow in M. destruct (mem (t_var t) (variables pre)) eqn:Q.
          - now apply mem_In.
          - rewrite pos_app_not in M by (now apply mem_false). lia. }
        destruct (dget (d_mut st) vi) as [cs|] eqn:Dg.
        + exists cs. split; [reflexivity|]. split; [apply (inv_mut_nd _ _ I)|].
          apply dget_In in Dg. destruct (inv_mut _ _ I vi cs Dg) as [Hnd Hj]. split; [exact Hnd|].
          assert (Ev : nth_error (variables pre) vi = Some (t_var t)).
          { rewrite Evi0. rewrite grow_pos by assumption. now apply nth_error_pos. }
          split.
          * intros j. rewrite Hj. split.
            -- intros (x & w & H1 & H2). exists w. rewrite Ev in H1. injection H1 as <-. exact H2.
            -- intros (w & H2). eauto.
          * split; [auto|]. intros k. rewrite HK. unfold grow. apply mem_In in Ex. now rewrite Ex.
        + apply dget_None in Dg. contradiction.
      - apply mem_false in M. pose proof M as Mk. rewrite HK in M.
        assert (Nx : ~ In (t_var t) (variables pre)).
        { intros Hx. apply M. rewrite Evi0. rewrite grow_pos by assumption. now apply pos_lt. }
        exists []. rewrite dget_dset, beq_refl. split; [reflexivity|].
        split; [apply dset_NoDup, (inv_mut_nd _ _ I)|]. split; [constructor|]. split; [|split].
        + intros j. split; [intros []|]. intros (w & H2). exfalso. apply Nx.
          change (t_var t) with (fst (t_var t, w)). apply claims_var. now apply nth_error_In in H2.
        + intros k l Hkl Hne. rewrite dset_new in Hkl by exact Mk. apply in_app_iff in Hkl. destruct Hkl as [H|[H|[]]]; [exact H|].
          injection H as <- <-. contradiction.
        + intros k. rewrite dset_new by exact Mk. unfold dkeys. rewrite map_app, in_app_iff. fold (dkeys (d_mut st)). rewrite HK.
          cbn. rewrite Evi0. unfold grow. apply mem_false in Nx. rewrite Nx. rewrite app_length. cbn.
          apply mem_false in Nx. rewrite pos_app_not by exact Nx. cbn. rewrite beq_refl. lia. }
    destruct Hmut as (cs & Dg & Mnd & Csnd & Hcs & Hold & Hkeys).
    rewrite Dg. cbn -[ids]. eexists. split; [reflexivity|].
    assert (Esi : nth_error ss si = Some (t_src t)) by (now apply nth_error_pos).
    assert (Evi : nth_error xs vi = Some (t_var t)) by (now apply nth_error_pos).
    assert (Hcin : In (t_claim t) (claims pre')) by (rewrite EC; apply grow_In).
    assert (Ecj : nth_error (claims pre') cj = Some (t_claim t)) by (now apply nth_error_pos).
    assert (EFt : first_claim pre' (t_src t) (t_var t) = Some (t_val t)).
    { unfold pre'. rewrite first_claim_app, E. apply first_claim_one. }
    assert (LiftS : forall i s, nth_error (sources pre) i = Some s -> nth_error ss i = Some s)
      by (intros; unfold ss, pre'; rewrite sources_snoc; now apply grow_nth).
    assert (LiftV : forall i s, nth_error (variables pre) i = Some s -> nth_error xs i = Some s)
      by (intros; unfold xs, pre'; rewrite variables_snoc; now apply grow_nth).
    assert (LiftC : forall i s, nth_error (claims pre) i = Some s -> nth_error (claims pre') i = Some s)
      by (intros; rewrite EC; now apply grow_nth).
    assert (FirstOld : forall s x, (s, x) <> (t_src t, t_var t) -> first_claim pre' s x = first_claim pre s x).
    { intros s x N. unfold pre'. rewrite first_claim_app. destruct (first_claim pre s x) eqn:Ef; [reflexivity|].
      unfold first_claim. cbn. destruct (beq_spec (t_src t) s) as [Q1|]; [|reflexivity].
      destruct (beq_spec (t_var t) x) as [Q2|]; [|reflexivity]. congruence. }
    assert (BackS : forall i s x, nth_error ss i = Some s -> first_claim pre s x <> None -> nth_error (sources pre) i = Some s).
    { intros i s x Hi Hf. assert (In s (sources pre)).
      { destruct (first_claim pre s x) eqn:Ef; [|congruence]. apply first_claim_In in Ef. apply sources_In; eauto. }
      apply nth_error_pos_iff in Hi; [|apply sources_NoDup]. destruct Hi as [_ ->].
      unfold ss, pre'. rewrite sources_snoc, grow_pos by assumption. now apply nth_error_pos. }
    assert (BackV : forall i s x, nth_error xs i = Some x -> first_claim pre s x <> None -> nth_error (variables pre) i = Some x).
    { intros i s x Hi Hf. assert (In x (variables pre)).
      { destruct (first_claim pre s x) eqn:Ef; [|congruence]. apply first_claim_In in Ef. apply variables_In; eauto. }
      apply nth_error_pos_iff in Hi; [|apply variables_NoDup]. destruct Hi as [_ ->].
      unfold xs, pre'. rewrite variables_snoc, grow_pos by assumption. now apply nth_error_pos. }
    assert (BackC : forall i s c, nth_error (claims pre') i = Some c -> says pre s c = true -> nth_error (claims pre) i = Some c).
    { intros i s c Hi Hf. assert (In c (claims pre)) by (apply claims_In; eauto).
      apply nth_error_pos_iff in Hi; [|apply claims_NoDup]. destruct Hi as [_ ->].
      rewrite EC, grow_pos by assumption. now apply nth_error_pos. }
    assert (FirstKeep : forall s x, first_claim pre s x <> None -> first_claim pre' s x = first_claim pre s x).
    { intros s x H. unfold pre'. rewrite first_claim_app. now destruct (first_claim pre s x). }
    assert (NewPair : ~ In (si, vi) (d_pairs st)).
    { apply mem_false. pose proof (inv_pair_mem pre st t I) as P. rewrite E in P. exact P. }
    assert (NewSc : ~ In (si, cj) (d_sc st)).
    { intros H. apply (inv_sc _ _ I) in H. destruct H as (s & c & H1 & H2 & H3).
      apply LiftS in H1. apply LiftC in H2. rewrite Esi in H1. rewrite Ecj in H2. injection H1 as <-. injection H2 as <-.
      apply says_true in H3. cbn in H3. congruence. }
    constructor; cbn -[ids]; try reflexivity.
    - (* pairs *)
      intros i k. rewrite in_app_iff, (inv_pairs _ _ I). cbn. fold xs ss. split.
      + intros [(s & x & H1 & H2 & H3)|[H|[]]].
        * exists s, x. rewrite FirstKeep by assumption. auto.
        * injection H as <- <-. exists (t_src t), (t_var t). rewrite EFt. repeat split; auto; discriminate.
      + intros (s & x & H1 & H2 & H3). destruct (eq_dec_of (s, x) (t_src t, t_var t)) as [Q|N].
        * right. left. injection Q as -> ->. f_equal.
          -- apply nth_error_pos_iff in H1; [|apply sources_NoDup]. now destruct H1.
          -- apply nth_error_pos_iff in H2; [|apply variables_NoDup]. now destruct H2.
        * left. exists s, x. rewrite FirstOld in H3 by assumption. eauto.
    - (* sc *)
      intros i j. rewrite in_app_iff, (inv_sc _ _ I). cbn. fold ss. split.
      + intros [(s & c & H1 & H2 & H3)|[H|[]]].
        * exists s, c. repeat split; auto. unfold says in *. rewrite FirstKeep; [exact H3|].
          intros Q. rewrite Q in H3. discriminate.
        * injection H as <- <-. exists (t_src t), (t_claim t). repeat split; auto. now apply says_true.
      + intros (s & c & H1 & H2 & H3). change (says (pre ++ [t]) s c = true) in H3. rewrite says_snoc in H3.
        destruct (first_claim pre s (fst c)) as [v|] eqn:Ef.
        * left. exists s, c. repeat split; eauto. apply (BackS i s (fst c)); [assumption|congruence].
        * right. left. apply andb_true_iff in H3. destruct H3 as [Q1 Q2]. apply beq_eq in Q1, Q2. subst s c. f_equal.
          -- apply nth_error_pos_iff in H1; [|apply sources_NoDup]. now destruct H1.
          -- apply nth_error_pos_iff in H2; [|apply claims_NoDup]. now destruct H2.
    - (* sc NoDup *)
      apply NoDup_Add with (a := (si, cj)) (l := d_sc st).
      + rewrite <- (app_nil_r (d_sc st)) at 1. apply Add_app.
      + split; [apply (inv_sc_nd _ _ I)|exact NewSc].
    - now apply dset_NoDup.
    - (* mutual exclusion sets *)
      intros k l Hkl. fold xs.
      assert (Hset : NoDup (set_add cj cs) /\ forall j, In j (set_add cj cs) <->
        exists x w, nth_error xs vi = Some x /\ nth_error (claims pre') j = Some (x, w)).
      { split.
        - unfold set_add. destruct (mem cj cs) eqn:M; [exact Csnd|]. apply mem_false in M.
          apply NoDup_Add with (a := cj) (l := cs); [rewrite <- (app_nil_r cs) at 1; apply Add_app|split; assumption].
        - intros j. assert (Q : In j (set_add cj cs) <-> In j cs \/ j = cj).
          { unfold set_add. destruct (mem cj cs) eqn:M.
            - apply mem_In in M. intuition (subst; auto).
            - rewrite in_app_iff. cbn. intuition (subst; auto). }
          rewrite Q, Hcs. split.
          + intros [(w & H)| ->].
            * exists (t_var t), w. auto.
            * exists (t_var t), (t_val t). auto.
          + intros (x & w & H1 & H2). rewrite Evi in H1. injection H1 as <-.
            apply nth_error_pos_iff in H2; [|apply claims_NoDup]. destruct H2 as [H2 ->].
            rewrite EC in H2. apply grow_In_iff in H2. destruct H2 as [H2|H2].
            * left. exists w. rewrite EC, grow_pos by assumption. now apply nth_error_pos.
            * right. now rewrite H2. }
      pose proof (dset_NoDup mut vi (set_add cj cs) Mnd) as ND'.
      pose proof (In_dget _ _ _ ND' Hkl) as Dk. rewrite dget_dset in Dk.
      destruct (beq_spec k vi) as [->|Nk].
      + injection Dk as <-. exact Hset.
      + apply dget_In in Dk. apply Hold in Dk; [|assumption]. destruct (inv_mut _ _ I k l Dk) as [H1 H2]. split; [exact H1|].
        intros j. rewrite H2. split.
        * intros (x & w & H3 & H4). exists x, w. auto.
        * intros (x & w & H3 & H4). exists x, w.
          assert (Hk : nth_error (variables pre) k = Some x).
          { assert (Hin : In k (dkeys (d_mut st))) by (apply in_map_iff; now exists (k, l)).
            apply (inv_mut_keys _ _ I) in Hin. apply nth_error_Some in Hin.
            destruct (nth_error (variables pre) k) as [y|] eqn:Ey; [|congruence].
            apply LiftV in Ey. congruence. }
          split; [exact Hk|].
          assert (Nc : (x, w) <> t_claim t).
          { intros Q. injection Q as Qx Qw. subst x w. apply Nk.
            apply nth_error_pos_iff in H3; [|apply variables_NoDup]. now destruct H3. }
          apply nth_error_pos_iff in H4; [|apply claims_NoDup]. destruct H4 as [H4 ->].
          rewrite EC in H4. apply grow_In_iff in H4. destruct H4 as [H4|H4]; [|contradiction].
          rewrite EC, grow_pos by assumption. now apply nth_error_pos.
    - (* keys *)
      intros k. change (In k (dkeys (dset mut vi (set_add cj cs))) <-> k < length xs). rewrite dkeys_dset. unfold dmem.
      assert (M : mem vi (dkeys mut) = true).
      { apply mem_In, Hkeys, nth_error_Some. congruence. }
      rewrite M. apply Hkeys.
  Qed.

  (** ** The whole loop *)
  Lemma dloop_app b l m st : dloop b st (l ++ m) = (st' <- dloop b st l ;; @dloop S V W _ _ _ b st' m).
  Proof.
    revert st. induction l as [|t r IH]; intros st; cbn [app dloop]; [reflexivity|].
    destruct (dstep b st t); cbn; [apply IH|reflexivity].
  Qed.
  Lemma dloop_allow ts : exists st, dloop true dinit ts = Ok st /\ Inv ts st.
  Proof.
    induction ts as [|t ts IH] using rev_ind.
    - exists dinit. split; [reflexivity|apply Inv_init].
    - destruct IH as (st & E & I). rewrite dloop_app, E. cbn [bind dloop].
      destruct (first_claim ts (t_src t) (t_var t)) as [v|] eqn:Ef.
      + destruct (dstep_skip _ _ _ _ I Ef) as (st' & E' & I'). exists st'. rewrite E'. auto.
      + destruct (dstep_new true _ _ _ I Ef) as (st' & E' & I'). exists st'. rewrite E'. auto.
  Qed.
  (** [s] and [x] are the first (source, variable) pair to come up a second time *)
  Definition first_repeat ts (s : S) (x : V) : Prop :=
    exists pre v post, ts = pre ++ (s, x, v) :: post /\ NoDup (sv_pairs pre) /\ In (s, x) (sv_pairs pre).
  Lemma dloop_strict ts :
    (NoDup (sv_pairs ts) /\ exists st, dloop false dinit ts = Ok st /\ Inv ts st) \/
    (exists s x, first_repeat ts s x /\ dloop false dinit ts = Err (MultipleClaims s x)).
  Proof.
    induction ts as [|t ts IH] using rev_ind.
    - left. split; [constructor|]. exists dinit. split; [reflexivity|apply Inv_init].
    - rewrite dloop_app. destruct IH as [(ND & st & E & I)|(s & x & (pre & v & post & Ets & HN & Hi) & E)].
      + rewrite E. cbn [bind dloop]. destruct (first_claim ts (t_src t) (t_var t)) as [v|] eqn:Ef.
        * right. exists (t_src t), (t_var t). split.
          -- exists ts, (t_val t), []. split; [now destruct t as [[? ?] ?]|]. split; [exact ND|].
             apply first_claim_In in Ef. apply in_map_iff. now exists (t_src t, t_var t, v).
          -- now rewrite (dstep_dup _ _ _ _ I Ef).
        * left. split.
          -- unfold sv_pairs. rewrite map_app. cbn [map]. apply NoDup_snoc; [exact ND|].
             apply first_claim_None in Ef. now destruct t as [[? ?] ?].
          -- destruct (dstep_new false _ _ _ I Ef) as (st' & E' & I'). exists st'. rewrite E'. auto.
      + right. exists s, x. rewrite E. cbn [bind]. split; [|reflexivity].
        exists pre, v, (post ++ [t]). rewrite Ets, <- app_assoc. auto.
  Qed.
  Lemma first_repeat_not_NoDup ts s x : first_repeat ts s x -> ~ NoDup (sv_pairs ts).
  Proof.
    intros (pre & v & post & -> & _ & Hi) ND. unfold sv_pairs in ND. rewrite map_app in ND. cbn in ND.
    apply NoDup_remove_2 in ND. apply ND. apply in_app_iff. now left.
  Qed.
  Lemma first_repeat_unique ts s x s' x' : first_repeat ts s x -> first_repeat ts s' x' -> s = s' /\ x = x'.
  Proof.
    intros (pre & v & post & E & N & I) (pre' & v' & post' & E' & N' & I').
    assert (L : length pre = length pre').
    { assert (G : forall (p q : list triple) a b u w, p ++ a :: u = q ++ b :: w -> NoDup (sv_pairs q) ->
                In (fst a) (sv_pairs p) -> length q <= length p).
      { clear. intros p q a b u w E N I. destruct (Nat.le_gt_cases (length q) (length p)) as [|L]; [assumption|exfalso].
        assert (P : exists r, q = p ++ a :: r).
        { revert q E L N. induction p as [|h p IH]; intros q E L N; destruct q as [|h' q]; cbn in *; try lia.
          injection E as <- E. destruct I as [I|I].
            + cbn in N. clear IH. inversion N as [|? ? Hn Hd]; subst. exfalso. apply Hn. rewrite I.
              assert (A : nth_error (p ++ a :: u) (length p) = nth_error (q ++ b :: w) (length p)) by now rewrite E.
              rewrite nth_error_app2, Nat.sub_diag in A by lia. rewrite nth_error_app1 in A by lia. cbn in A.
              symmetry in A. apply nth_error_In in A. now apply in_map.
            + inversion N; subst. destruct (IH I q E ltac:(lia)) as [r ->]; [assumption|]. now exists r. }
        destruct P as [r ->]. unfold sv_pairs in N. rewrite map_app in N. cbn in N. apply NoDup_remove_2 in N.
        apply N. apply in_app_iff. now left. }
      apply Nat.le_antisymm.
      - eapply (G pre' pre (s', x', v') (s, x, v)); [exact (eq_trans (eq_sym E') E)|exact N|exact I'].
      - eapply (G pre pre' (s, x, v) (s', x', v')); [exact (eq_trans (eq_sym E) E')|exact N'|exact I]. }
    rewrite E in E'. clear - E' L. revert pre' E' L. induction pre as [|a p IH]; intros [|b q] E L; cbn in *; try lia.
    - injection E as -> -> _ _. auto.
    - injection E as _ E. eauto.
  Qed.

  (** ** The matrices *)
  Lemma coo_at_unit (l : list (nat * nat)) i j : NoDup l ->
    coo_at (map (fun e => (e, n_ofZ 1 : F)) l) i j = if mem (i, j) l then [n_ofZ 1] else [].
  Proof.
    unfold coo_at. induction 1 as [|e t Hn Ht IH]; [reflexivity|]. cbn [map filter fst]. unfold mem. cbn [existsb].
    destruct (beq_spec e (i, j)) as [->|N].
    - rewrite beq_refl. cbn [map orb snd]. rewrite IH. apply mem_false in Hn. now rewrite Hn.
    - rewrite (beq_neq (i, j) e) by congruence. cbn [orb]. exact IH.
  Qed.
  Lemma csr_unit_stored r k (l : list (nat * nat)) i j : NoDup l ->
    m_stored (csr_of r k (map (fun e => (e, n_ofZ 1 : F)) l)) i j = mem (i, j) l.
  Proof. intros H. cbn. rewrite coo_at_unit by assumption. now destruct (mem (i, j) l). Qed.
  Lemma csr_unit_entry r k (l : list (nat * nat)) i j : NoDup l -> mem (i, j) l = true ->
    m_entry (csr_of r k (map (fun e => (e, n_ofZ 1 : F)) l)) i j = n_ofZ 1.
  Proof. intros H M. cbn. rewrite coo_at_unit by assumption. now rewrite M. Qed.

  Definition mut_list (st : dstate S V W) : list (nat * nat) := flat_map (fun kv => list_prod (snd kv) (snd kv)) (d_mut st).
  Lemma mut_list_In ts st i j : Inv ts st ->
    (In (i, j) (mut_list st) <-> exists x w w', nth_error (claims ts) i = Some (x, w) /\ nth_error (claims ts) j = Some (x, w')).
  Proof.
    intros I. unfold mut_list. rewrite in_flat_map. split.
    - intros ((k & l) & Hkl & Hin). cbn in Hin. apply in_prod_iff in Hin. destruct Hin as [Hi Hj].
      destruct (inv_mut _ _ I k l Hkl) as [_ Hm]. apply Hm in Hi, Hj.
      destruct Hi as (x & w & H1 & H2), Hj as (x' & w' & H3 & H4). exists x, w, w'. split; [assumption|]. congruence.
    - intros (x & w & w' & Hi & Hj).
      assert (Hx : In x (variables ts)).
      { change x with (fst (x, w)). apply claims_var. now apply nth_error_In in Hi. }
      set (k := pos x (variables ts)).
      assert (Hk : In k (dkeys (d_mut st))) by (apply (inv_mut_keys _ _ I); now apply pos_lt).
      apply in_map_iff in Hk. destruct Hk as ((k' & l) & E & Hkl). cbn in E. subst k'.
      exists (k, l). split; [assumption|]. cbn. apply in_prod_iff.
      destruct (inv_mut _ _ I k l Hkl) as [_ Hm].
      split; apply Hm; exists x; [exists w|exists w']; (split; [now apply nth_error_pos|assumption]).
  Qed.
  Lemma NoDup_app_intro {A} (l m : list A) : NoDup l -> NoDup m -> (forall x, In x l -> ~ In x m) -> NoDup (l ++ m).
  Proof.
    intros Hl Hm Hd. induction Hl as [|x t Hx Ht IH]; cbn; [assumption|]. constructor.
    - rewrite in_app_iff. intros [?|?]; [contradiction|]. apply (Hd x); cbn; auto.
    - apply IH. intros y Hy. apply Hd. now right.
  Qed.
  Lemma NoDup_list_prod {A B} (l : list A) (m : list B) : NoDup l -> NoDup m -> NoDup (list_prod l m).
  Proof.
    intros Hl Hm. induction Hl as [|x t Hx Ht IH]; cbn; [constructor|]. apply NoDup_app_intro.
    - apply NoDup_map_inj; [congruence|assumption].
    - assumption.
    - intros [a b] H1 H2. apply in_map_iff in H1. destruct H1 as (y & E & _). injection E as <- <-.
      apply in_prod_iff in H2. tauto.
  Qed.
  Lemma mut_list_NoDup ts st : Inv ts st -> NoDup (mut_list st).
  Proof.
    intros I. unfold mut_list.
    assert (Sub : forall kv, In kv (d_mut st) -> In kv (d_mut st)) by auto.
    pose proof (inv_mut_nd _ _ I) as ND. revert Sub ND. generalize (d_mut st) at 1 3 4 as d.
    induction d as [|[k l] d IH]; intros Sub ND; cbn; [constructor|].
    inversion ND as [|? ? Hn Ht]; subst. apply NoDup_app_intro.
    - assert (NoDup l) by (apply (inv_mut _ _ I k l); apply Sub; now left). now apply NoDup_list_prod.
    - apply IH; [intros; apply Sub; now right|assumption].
    - intros [i j] H1 H2. apply in_prod_iff in H1. destruct H1 as [H1 _].
      apply in_flat_map in H2. destruct H2 as ((k' & l') & Hkl & H2). cbn in H2. apply in_prod_iff in H2.
      destruct H2 as [H2 _].
      apply (inv_mut _ _ I k l) in H1; [|apply Sub; now left].
      apply (inv_mut _ _ I k' l') in H2; [|apply Sub; now right].
      destruct H1 as (x & w & A1 & A2), H2 as (x' & w' & B1 & B2).
      assert (x' = x) by congruence. subst x'.
      assert (k = k').
      { apply (NoDup_nth_error (variables ts)); [apply variables_NoDup|apply nth_error_Some; congruence|congruence]. }
      subst k'. apply Hn. apply in_map_iff. now exists (k, l').
  Qed.
  Lemma csr_chk_ok r k (l : list ((nat * nat) * F)) :
    (forall i j v, In ((i, j), v) l -> i < r /\ j < k) -> @csr_chk S V F r k l = Ok (csr_of r k l).
  Proof.
    intros H. unfold csr_chk. assert (E : forallb (fun e => (fst (fst e) <? r) && (snd (fst e) <? k)) l = true).
    { apply forallb_forall. intros [[i j] v] Hin. cbn [fst snd]. destruct (H _ _ _ Hin) as [H1 H2].
      apply Nat.ltb_lt in H1, H2. now rewrite H1, H2. }
    now rewrite E.
  Qed.

  Definition enc_claims ts : list (nat * nat) := map (enc (variables ts) (values ts)) (claims ts).
  Lemma inverse_claim ts st j x w : Inv ts st -> nth_error (claims ts) j = Some (x, w) ->
    inverse (d_claim_ids st) j = Some (pos x (variables ts), pos w (values ts)) /\
    inverse (d_var_ids st) (pos x (variables ts)) = Some x /\ inverse (d_val_hashes st) (pos w (values ts)) = Some w.
  Proof.
    intros I H. pose proof (nth_error_In _ _ H) as Hin. rewrite (inv_cl _ _ I), (inv_var _ _ I), (inv_val _ _ I), !inverse_ids.
    split; [|split].
    - rewrite nth_error_map, H. reflexivity.
    - apply nth_error_pos. now apply (claims_var ts (x, w)).
    - apply nth_error_pos. now apply (claims_val ts (x, w)).
  Qed.

  (** implication value between two claims, as defined by the user's function *)
  Definition imp_val (impf : option (V -> W -> W -> option F)) (c c' : claim) : option F :=
    if beq (fst c) (fst c') && negb (beq c c')
    then match impf with Some f => f (fst c) (snd c) (snd c') | None => None end else None.
  Definition imp_in_range (q : F) : bool := negb (n_ltb q (n_ofZ (-1)) || n_ltb (n_ofZ 1) q).

  Lemma imp_entry_spec ts st f i j c c' : Inv ts st ->
    nth_error (claims ts) i = Some c -> nth_error (claims ts) j = Some c' -> fst c = fst c' ->
    imp_entry f st (i, j) = match imp_val (Some f) c c' with
                            | None => Ok []
                            | Some q => if imp_in_range q then Ok [((i, j), q)] else Err BadImplication
                            end.
  Proof.
    intros I Hi Hj E. destruct c as [x w], c' as [x' w']. cbn in E. subst x'.
    unfold imp_entry, imp_val. cbn [fst snd]. rewrite beq_refl. cbn [andb].
    destruct (Nat.eqb_spec i j) as [->|N].
    - replace w' with w by congruence. rewrite beq_refl. reflexivity.
    - assert (D : (x, w) <> (x, w')).
      { intros Q. apply N. apply (NoDup_nth_error (claims ts)); [apply claims_NoDup|apply nth_error_Some; congruence|congruence]. }
      rewrite (beq_neq _ _ D). cbn [negb].
      destruct (inverse_claim ts st i x w I Hi) as (A1 & A2 & A3).
      destruct (inverse_claim ts st j x w' I Hj) as (B1 & B2 & B3).
      rewrite A1, B1. cbn [of_opt bind]. rewrite A2, A3, B3. cbn [of_opt bind].
      destruct (f x w w') as [q|]; [|reflexivity]. unfold imp_in_range.
      destruct (n_ltb q (n_ofZ (-1)) || n_ltb (n_ofZ 1) q); reflexivity.
  Qed.
End Proofs.
