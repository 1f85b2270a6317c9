(** Dataset construction, summarised: what a successfully built dataset is, and when construction fails. *)
From Coq Require Import Reals Lra.
From Verif Require Import Base Num Sparse Spec Dataset DatasetProofs.

(** The only fact about arithmetic used by the constructor: the integer 1 is not equal to 0. *)
Class NumOK (F : Num) := one_nonzero : n_eqb (n_ofZ 1 : F) (n_ofZ 0) = false.
#[export] Instance NumOK_XR : NumOK XR.
Proof. unfold NumOK. cbn. apply reqb_false. lra. Qed.

Section Rep.
  Context {S V W : Type} {ES : Eqb S} {EV : Eqb V} {EW : Eqb W} {F : Num} {FOK : NumOK F}.
  Notation triple := (S * V * W)%type.
  Notation claim := (V * W)%type.
  Implicit Types (ts : list triple) (c : claim).

  Definition same_var (c c' : claim) : bool := beq (fst c) (fst c').
  Definition is_some {A} (o : option A) : bool := match o with Some _ => true | None => false end.
  Definition imp_num (impf : option (V -> W -> W -> option F)) (c c' : claim) : F :=
    match imp_val impf c c' with Some q => q | None => n_ofZ 0 end.

  (** the dataset built from [ts] *)
  Record ds_rep ts (impf : option (V -> W -> W -> option F)) (d : dataset S V W F) : Prop := {
    rep_src : source_ids d = ids (sources ts);
    rep_var : var_ids d = ids (variables ts);
    rep_val : val_hashes d = ids (values ts);
    rep_cl : claim_ids d = ids (map (enc (variables ts) (values ts)) (claims ts));
    rep_ns : num_sources d = length (sources ts);
    rep_nv : num_variables d = length (variables ts);
    rep_nc : num_claims d = length (claims ts);
    rep_sc : mrep (sc d) (sources ts) (claims ts) (says ts) (fun _ _ => n_ofZ 1);
    rep_mut : mrep (mut_ex d) (claims ts) (claims ts) same_var (fun _ _ => n_ofZ 1);
    rep_imp : mrep (imp d) (claims ts) (claims ts) (fun c c' => is_some (imp_val impf c c')) (imp_num impf)
  }.

  Lemma nth_lt {A} (l : list A) i x : nth_error l i = Some x -> i < length l.
  Proof. intros H. apply nth_error_Some. congruence. Qed.

  (** all implication values between claims of [ts] are in range *)
  Definition imp_all_ok ts (impf : option (V -> W -> W -> option F)) : Prop :=
    forall c c' q, In c (claims ts) -> In c' (claims ts) -> imp_val impf c c' = Some q -> imp_in_range q = true.

  Definition entry_of impf ts (ij : nat * nat) : list ((nat * nat) * F) :=
    match nth_error (claims ts) (fst ij), nth_error (claims ts) (snd ij) with
    | Some c, Some c' => match imp_val impf c c' with Some q => [(ij, q)] | None => [] end
    | _, _ => []
    end.

  Lemma coo_at_flat (l : list (nat * nat)) (g : nat * nat -> list ((nat * nat) * F)) i j :
    NoDup l -> (forall ij, g ij = [] \/ exists q, g ij = [(ij, q)]) ->
    coo_at (concat (map g l)) i j = if mem (i, j) l then map snd (g (i, j)) else [].
  Proof.
    intros ND Hg. unfold coo_at. induction ND as [|e t Hn Ht IH]; [reflexivity|].
    cbn [map concat]. rewrite filter_app, map_app. unfold mem. cbn [existsb].
    destruct (beq_spec (i, j) e) as [<-|N]; cbn [orb].
    - rewrite IH. apply mem_false in Hn. rewrite Hn, app_nil_r.
      destruct (Hg (i, j)) as [E|[q E]]; rewrite E; [reflexivity|]. cbn [filter fst]. now rewrite beq_refl.
    - fold (mem (i, j) t). rewrite IH. destruct (Hg e) as [E|[q E]]; rewrite E; [reflexivity|].
      cbn [filter fst]. now rewrite beq_neq by congruence.
  Qed.
  Lemma entry_of_shape impf ts ij : entry_of impf ts ij = [] \/ exists q, entry_of impf ts ij = [(ij, q)].
  Proof.
    unfold entry_of. destruct (nth_error (claims ts) (fst ij)) as [c|]; auto.
    destruct (nth_error (claims ts) (snd ij)) as [c0|]; auto. destruct (imp_val impf c c0); eauto.
  Qed.

  Lemma finish_build b impf ts st : dloop b dinit ts = Ok st -> Inv ts st ->
    (imp_all_ok ts impf /\ exists d, build b impf ts = Ok d /\ ds_rep ts impf d) \/
    (~ imp_all_ok ts impf /\ build b impf ts = Err BadImplication).
  Proof.
    intros E I. unfold build. rewrite E. cbn [bind].
    assert (Ens : length (d_source_ids st) = length (sources ts)) by (rewrite (inv_src _ _ I); apply ids_length).
    assert (Env : length (d_var_ids st) = length (variables ts)) by (rewrite (inv_var _ _ I); apply ids_length).
    assert (Enc : length (d_claim_ids st) = length (claims ts)).
    { rewrite (inv_cl _ _ I), ids_length. apply map_length. }
    rewrite Ens, Env, Enc. fold (mut_list st).
    rewrite csr_chk_ok.
    2:{ intros i j v H. apply in_map_iff in H. destruct H as (e & Ee & H). injection Ee as -> _.
        apply (inv_sc _ _ I) in H. destruct H as (s & c & H1 & H2 & _). split; eapply nth_lt; eassumption. }
    cbn [bind]. rewrite csr_chk_ok.
    2:{ intros i j v H. apply in_map_iff in H. destruct H as (e & Ee & H). injection Ee as -> _.
        apply (mut_list_In ts st i j I) in H. destruct H as (x & w & w' & H1 & H2). split; eapply nth_lt; eassumption. }
    cbn [bind].
    set (scm := csr_of (length (sources ts)) (length (claims ts)) (map (fun e => (e, n_ofZ 1 : F)) (d_sc st))).
    set (mutm := csr_of (length (claims ts)) (length (claims ts)) (map (fun e => (e, n_ofZ 1 : F)) (mut_list st))).
    assert (Hsc : mrep scm (sources ts) (claims ts) (says ts) (fun _ _ => n_ofZ 1)).
    { split; [reflexivity|split; [reflexivity|]]. intros i j s c Hs Hc.
      assert (M : mem (i, j) (d_sc st) = says ts s c).
      { destruct (says ts s c) eqn:Q.
        - apply mem_In, (inv_sc _ _ I). eauto.
        - apply mem_false. intros H. apply (inv_sc _ _ I) in H. destruct H as (s' & c' & H1 & H2 & H3). congruence. }
      unfold scm. rewrite csr_unit_stored by apply (inv_sc_nd _ _ I). split; [exact M|]. intros Q.
      apply csr_unit_entry; [apply (inv_sc_nd _ _ I)|now rewrite M]. }
    pose proof (mut_list_NoDup ts st I) as MND.
    assert (Mmem : forall i j c c', nth_error (claims ts) i = Some c -> nth_error (claims ts) j = Some c' ->
              mem (i, j) (mut_list st) = same_var c c').
    { intros i j [x w] [x' w'] Hi Hj. unfold same_var. cbn [fst]. destruct (beq_spec x x') as [<-|N].
      - apply mem_In, (mut_list_In ts st i j I). eauto.
      - apply mem_false. intros H. apply (mut_list_In ts st i j I) in H. destruct H as (? & ? & ? & H1 & H2). congruence. }
    assert (Hmut : mrep mutm (claims ts) (claims ts) same_var (fun _ _ => n_ofZ 1)).
    { split; [reflexivity|split; [reflexivity|]]. intros i j c c' Hi Hj. unfold mutm.
      rewrite csr_unit_stored by exact MND. rewrite (Mmem _ _ _ _ Hi Hj). split; [reflexivity|]. intros Q.
      apply csr_unit_entry; [exact MND|]. now rewrite (Mmem _ _ _ _ Hi Hj). }
    assert (NZ : forall i j, In (i, j) (nonzero mutm) <-> exists c c', nth_error (claims ts) i = Some c /\
              nth_error (claims ts) j = Some c' /\ fst c = fst c').
    { intros i j. unfold nonzero. rewrite filter_In, in_prod_iff, !in_seq. cbn [fst snd]. split.
      - intros [_ H]. apply andb_true_iff in H. destruct H as [H _]. unfold mutm in H.
        rewrite csr_unit_stored in H by exact MND. apply mem_In, (mut_list_In ts st i j I) in H.
        destruct H as (x & w & w' & H1 & H2). exists (x, w), (x, w'). auto.
      - intros (c & c' & Hi & Hj & Ex). split.
        + apply nth_lt in Hi, Hj. unfold mutm. cbn. lia.
        + assert (Q : same_var c c' = true) by (unfold same_var; rewrite Ex; apply beq_refl).
          destruct Hmut as (_ & _ & H). destruct (H i j c c' Hi Hj) as [H1 H2]. rewrite H1, Q, H2 by exact Q.
          now rewrite one_nonzero. }
    assert (NZND : NoDup (nonzero mutm)).
    { unfold nonzero. apply NoDup_filter, NoDup_list_prod; apply seq_NoDup. }
    assert (Cls : forall c, In c (claims ts) -> exists i, nth_error (claims ts) i = Some c)
      by (intros c Hc; now apply In_nth_error).
    (* entries *)
    assert (Hentries :
      (imp_all_ok ts impf /\
        match impf with None => Ok [] | Some f => ls <- mapM (imp_entry f st) (nonzero mutm) ;; Ok (concat ls) end
        = Ok (concat (map (entry_of impf ts) (nonzero mutm)))) \/
      (~ imp_all_ok ts impf /\
        match impf with None => Ok [] | Some f => ls <- mapM (imp_entry f st) (nonzero mutm) ;; Ok (concat ls) end
        = Err BadImplication)).
    { destruct impf as [f|].
      - assert (G : forall l, (forall i j, In (i, j) l -> exists c c', nth_error (claims ts) i = Some c /\
              nth_error (claims ts) j = Some c' /\ fst c = fst c') ->
            (mapM (imp_entry f st) l = Ok (map (entry_of (Some f) ts) l) /\
             forall i j c c' q, In (i, j) l -> nth_error (claims ts) i = Some c -> nth_error (claims ts) j = Some c' ->
               imp_val (Some f) c c' = Some q -> imp_in_range q = true) \/
            (mapM (imp_entry f st) l = Err BadImplication /\ exists c c' q, In c (claims ts) /\ In c' (claims ts) /\
               imp_val (Some f) c c' = Some q /\ imp_in_range q = false)).
        { induction l as [|[i j] l IH]; intros Hl; [left; split; [reflexivity|intros ? ? ? ? ? []]|].
          destruct (Hl i j (or_introl eq_refl)) as (c & c' & Hi & Hj & Ex). cbn [mapM map].
          rewrite (imp_entry_spec ts st f i j c c' I Hi Hj Ex).
          assert (Eo : entry_of (Some f) ts (i, j) = match imp_val (Some f) c c' with Some q => [((i, j), q)] | None => [] end).
          { unfold entry_of. cbn [fst snd]. now rewrite Hi, Hj. }
          rewrite Eo. clear Eo.
          destruct (imp_val (Some f) c c') as [q|] eqn:Eq.
          - destruct (imp_in_range q) eqn:Er.
            + cbn [bind]. destruct IH as [[IH1 IH2]|[IH1 IH2]]; [intros; apply Hl; now right| |].
              * left. rewrite IH1. cbn [bind]. split; [reflexivity|]. intros ia ib u u' q' [Eab|Hin] Ha Hb Hv.
                -- injection Eab as <- <-. congruence.
                -- eauto.
              * right. rewrite IH1. cbn [bind]. split; [reflexivity|exact IH2].
            + right. cbn [bind]. split; [reflexivity|]. apply nth_error_In in Hi, Hj. eauto 8.
          - cbn [bind]. destruct IH as [[IH1 IH2]|[IH1 IH2]]; [intros; apply Hl; now right| |].
            + left. rewrite IH1. cbn [bind]. split; [reflexivity|]. intros ia ib u u' q' [Eab|Hin] Ha Hb Hv.
              * injection Eab as <- <-. congruence.
              * eauto.
            + right. rewrite IH1. cbn [bind]. split; [reflexivity|exact IH2]. }
        destruct (G (nonzero mutm)) as [[G1 G2]|[G1 G2]]; [intros i j H; now apply NZ| |].
        + left. rewrite G1. cbn [bind]. split; [|reflexivity]. intros c c' q Hc Hc' Hv.
          destruct (Cls c Hc) as [i Hi], (Cls c' Hc') as [j Hj].
          apply (G2 i j c c' q); auto. apply NZ. exists c, c'. repeat split; auto.
          unfold imp_val in Hv. destruct (beq_spec (fst c) (fst c')); [assumption|discriminate].
        + right. rewrite G1. cbn [bind]. split; [|reflexivity]. intros H. destruct G2 as (c & c' & q & Hc & Hc' & Hv & Hr).
          specialize (H c c' q Hc Hc' Hv). congruence.
      - left. split.
        + intros c c' q _ _ H. unfold imp_val in H. destruct (beq (fst c) (fst c') && negb (beq c c')); discriminate.
        + f_equal. symmetry. clear. induction (nonzero mutm) as [|ij l IH]; [reflexivity|]. cbn. rewrite IH.
          unfold entry_of, imp_val. destruct (nth_error (claims ts) (fst ij)) as [c|]; [|reflexivity].
          destruct (nth_error (claims ts) (snd ij)) as [c0|]; [|reflexivity].
          destruct (beq (fst c) (fst c0) && negb (beq c c0)); reflexivity. }
    destruct Hentries as [[Hok He]|[Hno He]]; rewrite He; cbn [bind].
    2:{ right. auto. }
    left. split; [exact Hok|].
    set (entries := concat (map (entry_of impf ts) (nonzero mutm))).
    set (impm := match entries with [] => csr_empty (length (claims ts)) (length (claims ts))
                 | _ => csr_of (length (claims ts)) (length (claims ts)) entries end).
    assert (Echk : (match entries with
        | [] => Ok (csr_empty (length (claims ts)) (length (claims ts)))
        | _ :: _ => @csr_chk S V F (length (claims ts)) (length (claims ts)) entries
        end) = Ok impm).
    { unfold impm. assert (R : forall i j v, In ((i, j), v) entries -> i < length (claims ts) /\ j < length (claims ts)).
      { intros i j v H. unfold entries in H. apply in_concat in H. destruct H as (l & Hl & Hv). apply in_map_iff in Hl.
        destruct Hl as ((i' & j') & <- & Hn). destruct (entry_of_shape impf ts (i', j')) as [Q|[q Q]]; rewrite Q in Hv; [destruct Hv|].
        destruct Hv as [Hv|[]]. injection Hv as -> -> _. apply NZ in Hn. destruct Hn as (c & c' & H1 & H2 & _).
        split; eapply nth_lt; eassumption. }
      pose proof (csr_chk_ok (S:=S) (V:=V) _ _ _ R) as Q. destruct entries; [reflexivity|exact Q]. }
    rewrite Echk. cbn [bind]. eexists. split; [reflexivity|]. constructor; cbn; auto.
    - apply (inv_src _ _ I).
    - apply (inv_var _ _ I).
    - apply (inv_val _ _ I).
    - apply (inv_cl _ _ I).
    - assert (Hat : forall i j c c', nth_error (claims ts) i = Some c -> nth_error (claims ts) j = Some c' ->
                coo_at entries i j = match imp_val impf c c' with Some q => [q] | None => [] end).
      { intros i j c c' Hi Hj. unfold entries. rewrite coo_at_flat by (auto using entry_of_shape).
        unfold entry_of. cbn [fst snd]. rewrite Hi, Hj.
        destruct (mem (i, j) (nonzero mutm)) eqn:M; [now destruct (imp_val impf c c')|].
        apply mem_false in M. destruct (imp_val impf c c') as [q|] eqn:Q; [|reflexivity]. exfalso. apply M, NZ.
        exists c, c'. repeat split; auto. unfold imp_val in Q. destruct (beq_spec (fst c) (fst c')); [assumption|discriminate]. }
      assert (Hempty : entries = [] -> forall i j c c', nth_error (claims ts) i = Some c -> nth_error (claims ts) j = Some c' ->
                imp_val impf c c' = None).
      { intros En i j c c' Hi Hj. specialize (Hat i j c c' Hi Hj). rewrite En in Hat. cbn in Hat.
        now destruct (imp_val impf c c'). }
      split; [unfold impm; destruct entries; reflexivity|split; [unfold impm; destruct entries; reflexivity|]].
      intros i j c c' Hi Hj. specialize (Hat i j c c' Hi Hj). unfold imp_num. unfold impm.
      destruct entries as [|e0 er] eqn:En.
      + rewrite (Hempty eq_refl i j c c' Hi Hj). split; [reflexivity|discriminate].
      + cbn [csr_of m_stored m_entry]. rewrite Hat. destruct (imp_val impf c c'); [|split; [reflexivity|discriminate]].
        split; reflexivity.
  Qed.

  (** Construction with [allow_multiple=True]. *)
  Theorem build_allow impf ts :
    (imp_all_ok ts impf /\ exists d, build true impf ts = Ok d /\ ds_rep ts impf d) \/
    (~ imp_all_ok ts impf /\ build true impf ts = Err BadImplication).
  Proof. destruct (dloop_allow ts) as (st & E & I). now apply finish_build with st. Qed.

  (** Construction with [allow_multiple=False]. *)
  Theorem build_strict impf ts :
    (NoDup (sv_pairs ts) /\ imp_all_ok ts impf /\ exists d, build false impf ts = Ok d /\ ds_rep ts impf d) \/
    (NoDup (sv_pairs ts) /\ ~ imp_all_ok ts impf /\ build false impf ts = Err BadImplication) \/
    (exists s x, first_repeat ts s x /\ build false impf ts = Err (MultipleClaims s x)).
  Proof.
    destruct (dloop_strict ts) as [(ND & st & E & I)|(s & x & H & E)].
    - destruct (finish_build false impf ts st E I) as [[H1 H2]|[H1 H2]]; auto.
    - right. right. exists s, x. split; [exact H|]. unfold build. now rewrite E.
  Qed.

  Theorem build_rep b impf ts d : build b impf ts = Ok d -> ds_rep ts impf d.
  Proof.
    destruct b.
    - destruct (build_allow impf ts) as [(_ & d' & E & R)|(_ & E)]; rewrite E; intros H; [now injection H as <-|discriminate].
    - destruct (build_strict impf ts) as [(_ & _ & d' & E & R)|[(_ & _ & E)|(s & x & _ & E)]]; rewrite E; intros H;
        [now injection H as <-|discriminate|discriminate].
  Qed.

  (** Score vectors in label order come back as label-keyed dictionaries. *)
  Lemma trust_dict_rep ts impf d {T} (f : S -> T) : ds_rep ts impf d ->
    get_source_trust_dict d (map f (sources ts)) = Some (map (fun s => (s, f s)) (sources ts)).
  Proof.
    intros R. unfold get_source_trust_dict, enumerate.
    assert (G : forall l k acc, (forall i s, nth_error l i = Some s -> nth_error (sources ts) (k + i) = Some s) ->
              NoDup (dkeys acc ++ l) ->
              trust_dict_from d (enum_from k (map f l)) acc = Some (acc ++ map (fun s => (s, f s)) l)).
    { induction l as [|s l IH]; intros k acc Hn ND; cbn; [now rewrite app_nil_r|].
      rewrite (rep_src _ _ _ R), inverse_ids.
      assert (E : nth_error (sources ts) k = Some s) by (rewrite <- (Nat.add_0_r k); apply Hn; reflexivity).
      rewrite E. pose proof ND as ND'. apply NoDup_remove_2 in ND'. rewrite in_app_iff in ND'.
      rewrite dset_new by tauto. rewrite IH.
      - now rewrite <- app_assoc.
      - intros i s' H. rewrite Nat.add_succ_l, <- Nat.add_succ_r. apply Hn. exact H.
      - unfold dkeys in *. rewrite map_app, <- app_assoc. exact ND. }
    rewrite G; [reflexivity|auto|cbn; apply sources_NoDup].
  Qed.

  (** the values claimed for [x] with their scores, in claim order *)
  Definition scores_of (cs : list claim) {T} (g : claim -> T) (x : V) : dict W T :=
    map (fun c => (snd c, g c)) (filter (fun c => beq (fst c) x) cs).
  Definition beliefs_of (cs : list claim) {T} (g : claim -> T) : dict V (dict W T) :=
    map (fun x => (x, scores_of cs g x)) (distinct (map fst cs)).

  Lemma dget_map_keys {T} (h : V -> T) (xs : list V) x : dget (map (fun x => (x, h x)) xs) x = if mem x xs then Some (h x) else None.
  Proof.
    induction xs as [|y t IH]; cbn; [reflexivity|]. unfold mem; cbn. destruct (beq_spec x y) as [->|N]; cbn; [reflexivity|].
    exact IH.
  Qed.
  Lemma dset_map_keys {T} (h : V -> T) (xs : list V) x v : In x xs -> NoDup xs ->
    dset (map (fun x => (x, h x)) xs) x v = map (fun y => (y, if beq x y then v else h y)) xs.
  Proof.
    intros Hx ND. induction ND as [|y t Hn Ht IH]; [destruct Hx|]. cbn. destruct (beq_spec x y) as [->|N].
    - f_equal. apply map_ext_in. intros z Hz. rewrite beq_neq by (intros <-; contradiction). reflexivity.
    - f_equal. apply IH. destruct Hx; congruence.
  Qed.

  Lemma belief_dict_rep ts impf d {T} (g : claim -> T) : ds_rep ts impf d ->
    get_belief_dict d (map g (claims ts)) = Some (beliefs_of (claims ts) g).
  Proof.
    intros R. unfold get_belief_dict, enumerate.
    assert (G : forall l pre, claims ts = pre ++ l ->
              belief_dict_from d (enum_from (length pre) (map g l)) (beliefs_of pre g) = Some (beliefs_of (pre ++ l) g)).
    { induction l as [|c l IH]; intros pre E; cbn; [now rewrite app_nil_r|].
      assert (Hc : nth_error (claims ts) (length pre) = Some c).
      { rewrite E, nth_error_app2, Nat.sub_diag by lia. reflexivity. }
      pose proof (nth_error_In _ _ Hc) as Hin.
      rewrite (rep_cl _ _ _ R), inverse_ids, nth_error_map, Hc. cbn.
      rewrite (rep_var _ _ _ R), (rep_val _ _ _ R), !inverse_ids, !nth_error_pos by (now apply claims_var || now apply claims_val).
      specialize (IH (pre ++ [c])). rewrite <- app_assoc in IH. specialize (IH E).
      rewrite app_length, Nat.add_1_r in IH.
      replace (pre ++ c :: l) with ((pre ++ [c]) ++ l) by (now rewrite <- app_assoc).
      assert (Fresh : forall w, In w (map fst (scores_of pre g (fst c))) -> w <> snd c).
      { intros w Hw Ew. subst w. unfold scores_of in Hw. rewrite map_map in Hw. apply in_map_iff in Hw.
        destruct Hw as (c' & E1 & Hc'). apply filter_In in Hc'. destruct Hc' as [Hc' E2]. apply beq_eq in E2. cbn in E1.
        assert (c' = c) by (destruct c, c'; cbn in *; congruence). subst c'.
        pose proof (claims_NoDup ts) as ND. rewrite E in ND. apply NoDup_remove_2 in ND. apply ND, in_app_iff. now left. }
      assert (Snoc : forall x, scores_of (pre ++ [c]) g x = if beq (fst c) x then scores_of pre g x ++ [(snd c, g c)] else scores_of pre g x).
      { intros x. unfold scores_of. rewrite filter_app, map_app. cbn [filter]. destruct (beq (fst c) x); [reflexivity|].
        now rewrite app_nil_r. }
      assert (Acc : forall acc inner, acc = (if dmem (beliefs_of pre g) (fst c) then beliefs_of pre g else dset (beliefs_of pre g) (fst c) []) ->
                 dget acc (fst c) = Some inner -> dset acc (fst c) (dset inner (snd c) (g c)) = beliefs_of (pre ++ [c]) g).
      { intros acc inner Ea Ei. unfold beliefs_of in Ea at 1 2. unfold dmem, dkeys in Ea. rewrite map_map in Ea. cbn in Ea. rewrite map_id in Ea.
        unfold beliefs_of. rewrite map_app. cbn [map]. rewrite distinct_grow. unfold grow.
        match goal with |- context [if ?m then _ else _] => set (b := m) end.
        assert (Eb : b = mem (fst c) (distinct (map fst pre))) by reflexivity. clearbody b. subst b.
        destruct (mem (fst c) (distinct (map fst pre))) eqn:M.
        - subst acc. unfold beliefs_of in *. rewrite dget_map_keys, M in Ei. injection Ei as <-.
          rewrite dset_map_keys; [|now apply mem_In|apply distinct_NoDup]. apply map_ext. intros x. f_equal. rewrite Snoc.
          destruct (beq_spec (fst c) x) as [<-|N]; [|reflexivity]. apply dset_new. intros Hw. now apply (Fresh _ Hw).
        - rewrite dset_new in Ea.
          2:{ unfold beliefs_of, dkeys. rewrite map_map. cbn. rewrite map_id. now apply mem_false. }
          subst acc.
          assert (Ei' : inner = []).
          { assert (Q : dget (beliefs_of pre g) (fst c) = None).
            { unfold beliefs_of. rewrite dget_map_keys. now rewrite M. }
            revert Ei Q. clear. generalize (beliefs_of pre g) as l. induction l as [|[a b] l IH]; cbn.
            - rewrite beq_refl. congruence.
            - destruct (beq (fst c) a); [discriminate|auto]. }
          subst inner. cbn [dset]. rewrite map_app. cbn [map]. rewrite Snoc, beq_refl.
          assert (E0 : scores_of pre g (fst c) = []).
          { unfold scores_of. destruct (filter (fun c0 => beq (fst c0) (fst c)) pre) as [|c0 r] eqn:Q; [reflexivity|exfalso].
            assert (H : In c0 (filter (fun c0 => beq (fst c0) (fst c)) pre)) by (rewrite Q; now left).
            apply filter_In in H. destruct H as [H1 H2]. apply beq_eq in H2. apply mem_false in M. apply M, distinct_In.
            rewrite <- H2. now apply in_map. }
          rewrite E0. cbn [app].
          assert (D : dset (beliefs_of pre g ++ [(fst c, [])]) (fst c) [(snd c, g c)] = beliefs_of pre g ++ [(fst c, [(snd c, g c)])]).
          { assert (Q : ~ In (fst c) (dkeys (beliefs_of pre g))).
            { unfold beliefs_of, dkeys. rewrite map_map. cbn. rewrite map_id. now apply mem_false. }
            revert Q. clear. generalize (beliefs_of pre g) as l. induction l as [|[a b] l IH]; cbn; intros Q.
            - now rewrite beq_refl.
            - rewrite beq_neq by (intros Hq; apply Q; left; now symmetry). f_equal. apply IH. tauto. }
          etransitivity; [exact D|]. f_equal. unfold beliefs_of. apply map_ext_in. intros x Hx. f_equal. rewrite Snoc.
          rewrite beq_neq; [reflexivity|]. intros Q. apply mem_false in M. rewrite Q in M. contradiction. }
      destruct (dget (if dmem (beliefs_of pre g) (fst c) then beliefs_of pre g else dset (beliefs_of pre g) (fst c) []) (fst c))
        as [inner|] eqn:Di.
      - rewrite (Acc _ inner eq_refl Di). rewrite <- app_assoc in *. exact IH.
      - exfalso. destruct (dmem (beliefs_of pre g) (fst c)) eqn:M.
        + apply dget_None in Di. apply Di. now apply mem_In.
        + rewrite dget_dset, beq_refl in Di. discriminate. }
    exact (G (claims ts) [] eq_refl).
  Qed.
End Rep.
