(** Property theorems about run and run_iter: C26-C30.  They hold for every number type, IEEE floats included. *)
From Coq Require Import Reals Lra.
From Verif Require Import Base Num Sparse Spec Dataset DatasetProofs DatasetRep Iterators Algorithms Driver Rounds PropsData PropsIter.

Section Run.
  Context {S V W : Type} {ES : Eqb S} {EV : Eqb V} {EW : Eqb W} {F : Num} {FOK : NumOK F}.
  Notation data := (dataset S V W F).
  Notation aobj := (aobj S V W F).
  Notation result := (result S V W F).

  (** a Dataset object: one the constructor accepts *)
  Definition real (d : data) : Prop := exists b impf ts, build b impf ts = Ok d.

  Lemma it_loop_err (a b : nat -> vec F) brk fuel (it : iterator F) k e :
    fst (fst (it_loop a b brk fuel it k)) = Err e ->
    e = OutOfFuel \/ e = ConvergenceError \/ e = InvalidMeasureError \/ e = EmptySequence \/ e = KeyErr.
  Proof.
    revert it k. induction fuel as [|n IH]; intros it k; cbn; [intros [= <-]; auto|].
    destruct (finished it) as [[|]|e'] eqn:Ef; cbn.
    - discriminate.
    - destruct (brk k); [discriminate|]. destruct (compare it (a k) (b k)) as [[[]|e'] it'] eqn:Ec; [apply IH|].
      cbn. intros [= ->]. destruct it; cbn in Ec; [discriminate| |].
      + destruct (get_distance m (a k) (b k)) as [x|e0] eqn:Ed; [discriminate|]. injection Ec as -> _.
        unfold get_distance in Ed. destruct m; try discriminate.
        * destruct (norm_inf _); [discriminate|]. injection Ed as <-. auto.
        * destruct (_ || _)%bool; discriminate.
        * injection Ed as <-. auto.
      + destruct (get_ranking_vector (a k)), (get_ranking_vector (b k)); try discriminate; injection Ec as <- _; auto.
    - intros [= ->]. destruct it; cbn in Ef; try discriminate. destruct (match current with Some _ => _ | None => _ end); [discriminate|].
      destruct (limit <=? _)%Z; [|discriminate]. injection Ef as <-. auto.
  Qed.
  Lemma final_err (a : alg F) it x e : final a it x = Err e -> e = KeyErr \/ e = NoSuchMethod.
  Proof.
    destruct a; cbn; try discriminate. destruct it; try (intros [= <-]; auto).
    destruct (get_ranking_vector (fst x)), (get_ranking_vector (snd x)); try discriminate; intros [= <-]; auto.
  Qed.

  (** C26.  An empty dataset is refused before anything happens; no other dataset gets that error. *)
  Theorem C26_empty b impf ts (d : data) : build b impf ts = Ok d -> forall clock fuel o,
    (ts = [] -> run clock fuel o d = (Err EmptyDatasetError, o) /\ run_iter clock fuel o d = (Err EmptyDatasetError, o) /\
                voting_run clock d = Err EmptyDatasetError) /\
    (ts <> [] -> fst (run clock fuel o d) <> Err EmptyDatasetError /\ fst (run_iter clock fuel o d) <> Err EmptyDatasetError /\
                voting_run clock d <> Err EmptyDatasetError).
  Proof.
    intros Hb clock fuel [a p it lg]. pose proof (build_rep _ _ _ _ Hb) as R. split.
    - intros ->. assert (E : num_claims d = 0) by (now rewrite (rep_nc _ _ _ R)).
      unfold run, run_iter, voting_run. rewrite E. auto.
    - intros NE. rewrite (run_char clock ts impf d R NE), (run_iter_char clock ts impf d R NE).
      split; [|split].
      + destruct (init a p d) as [x0|]; [|discriminate].
        destruct (it_loop _ _ _ fuel (reset it) 0) as [[r k] it'] eqn:E. cbn. destruct r as [u|e].
        * destruct (final a it' (scores a d x0 k)) as [x|e] eqn:Ef; [discriminate|]. apply final_err in Ef. intros [= ->]. intuition discriminate.
        * assert (H : fst (fst (it_loop (cmp1 a d x0) (cmp2 a d x0) (stops a d x0) fuel (reset it) 0)) = Err e) by now rewrite E.
          apply it_loop_err in H. intros [= ->]. intuition discriminate.
      + destruct (init a p d) as [x0|]; [|discriminate].
        destruct (it_loop _ _ _ fuel (reset it) 0) as [[r k] it'] eqn:E. cbn. destruct r as [u|e].
        * destruct (final a it' (scores a d x0 k)) as [x|e] eqn:Ef; [discriminate|]. apply final_err in Ef. intros [= ->]. intuition discriminate.
        * assert (H : fst (fst (it_loop (cmp1 a d x0) (cmp2 a d x0) (stops a d x0) fuel (reset it) 0)) = Err e) by now rewrite E.
          apply it_loop_err in H. intros [= ->]. intuition discriminate.
      + unfold voting_run. destruct (Nat.eqb_spec (num_claims d) 0) as [Z|_]; [now apply (nc_pos ts impf d R NE) in Z|].
        destruct (npmax _); [|discriminate]. destruct (get_source_trust_dict _ _); [|discriminate].
        destruct (get_belief_dict _ _); discriminate.
  Qed.

  (** Basic fact behind C27: what run and run_iter return and leave behind. *)
  Lemma run_reset (d : data) clock fuel a p it it' lg lg' : real d -> reset it = reset it' ->
    fst (run clock fuel (AObj a p it lg) d) = fst (run clock fuel (AObj a p it' lg') d) /\
    fst (run_iter clock fuel (AObj a p it lg) d) = fst (run_iter clock fuel (AObj a p it' lg') d) /\
    (let o := snd (run clock fuel (AObj a p it lg) d) in o_alg o = a /\ o_priors o = p /\ reset (o_it o) = reset it) /\
    (let o := snd (run_iter clock fuel (AObj a p it lg) d) in o_alg o = a /\ o_priors o = p /\ reset (o_it o) = reset it).
  Proof.
    intros (b & impf & ts & Hb) Hr. pose proof (build_rep _ _ _ _ Hb) as R.
    assert (RR : reset (reset it) = reset it) by (now destruct it).
    destruct ts as [|t0 tr].
    - destruct (C26_empty b impf [] d Hb clock fuel (AObj a p it lg)) as [H _]. destruct (H eq_refl) as (-> & -> & _).
      destruct (C26_empty b impf [] d Hb clock fuel (AObj a p it' lg')) as [H' _]. destruct (H' eq_refl) as (-> & -> & _). cbn. repeat split; auto.
    - assert (NE : t0 :: tr <> []) by discriminate. remember (t0 :: tr) as ts eqn:Ets. clear Ets.
      rewrite !(run_char clock ts impf d R NE), !(run_iter_char clock ts impf d R NE), <- Hr.
      destruct (init a p d) as [x0|].
      + pose proof (it_loop_reset (cmp1 a d x0) (cmp2 a d x0) (stops a d x0) fuel (reset it) 0) as Q.
        destruct (it_loop _ _ _ fuel (reset it) 0) as [[r k] it'']. cbn in *. rewrite RR in Q. auto 10.
      + cbn. auto 10.
  Qed.

  (** ** C27 and C30: objects, shared iterators and generators.

      A world: algorithm objects (sharing iterator objects by reference), iterator objects, the lists created by run_iter
      calls, and generator objects. *)
  Record wobj := WObj { wo_alg : alg F; wo_priors : prior; wo_it : nat; wo_log : option nat }.
  Inductive gen :=
  | GNew (i : nat) (d : data)          (* created by objs[i].run_iter(d), not yet started *)
  | GList (log : nat) (idx : nat)      (* inside "yield from self.results_log", next index idx *)
  | GDone.
  Record world := World { w_objs : list wobj; w_its : list (iterator F); w_heap : list (list result); w_gens : list gen }.
  Inductive op :=
  | OpRun (i : nat) (d : data) (clock : nat -> F) (fuel : nat)       (* objs[i].run(d) *)
  | OpRunIter (i : nat) (d : data)                                   (* g = objs[i].run_iter(d) *)
  | OpNext (g : nat) (clock : nat -> F) (fuel : nat)                 (* next(g) *)
  | OpIter (r : nat) (o : itop F).                                   (* direct use of an iterator object *)
  Inductive out := RunOut (r : res aerr result) | NoOut | Yield (r : result) | StopIteration | Raise (e : aerr) | BadIndex.

  Definition upd {A} (l : list A) (i : nat) (x : A) : list A :=
    match nth_error l i with Some _ => firstn i l ++ x :: skipn (Datatypes.S i) l | None => l end.

  (** base.py:114-126: run on a world *)
  Definition wrun (w : world) (i : nat) (d : data) clock fuel : out * world :=
    match nth_error (w_objs w) i with
    | None => (BadIndex, w)
    | Some o =>
        match nth_error (w_its w) (wo_it o) with
        | None => (BadIndex, w)
        | Some it =>
            let '(r, o') := run clock fuel (AObj (wo_alg o) (wo_priors o) it None) d in
            let wlog := if Nat.eqb (num_claims d) 0 then wo_log o else None in       (* self.results_log = None *)
            (RunOut r, World (upd (w_objs w) i (WObj (wo_alg o) (wo_priors o) (wo_it o) wlog))
                         (upd (w_its w) (wo_it o) (o_it o')) (w_heap w) (w_gens w))
        end
    end.
  (* yield from a list object: the item at idx, or StopIteration *)
  Definition wyield (w : world) (g log idx : nat) : out * world :=
    match nth_error (w_heap w) log with
    | None => (BadIndex, w)
    | Some l =>
        match nth_error l idx with
        | Some r => (Yield r, World (w_objs w) (w_its w) (w_heap w) (upd (w_gens w) g (GList log (Datatypes.S idx))))
        | None => (StopIteration, World (w_objs w) (w_its w) (w_heap w) (upd (w_gens w) g GDone))
        end
    end.
  (** base.py:128-138: a generator runs up to its first yield when it is first advanced *)
  Definition wstart (w : world) (g i : nat) (d : data) clock fuel : out * world :=
    match nth_error (w_objs w) i with
    | None => (BadIndex, w)
    | Some o =>
        match nth_error (w_its w) (wo_it o) with
        | None => (BadIndex, w)
        | Some it =>
            let '(r, o') := run_iter clock fuel (AObj (wo_alg o) (wo_priors o) it None) d in
            if Nat.eqb (num_claims d) 0 then (Raise EmptyDatasetError, World (w_objs w) (w_its w) (w_heap w) (upd (w_gens w) g GDone))
            else
              let new := length (w_heap w) in                                   (* self.results_log = [] : a new list *)
              let heap := w_heap w ++ [match o_log o' with Some l => l | None => [] end] in
              let objs := upd (w_objs w) i (WObj (wo_alg o) (wo_priors o) (wo_it o) (Some new)) in
              let w' := World objs (upd (w_its w) (wo_it o) (o_it o')) heap (w_gens w) in
              match r with
              | Err e => (Raise e, World objs (w_its w') heap (upd (w_gens w) g GDone))
              | Ok _ => match nth_error objs i with                             (* reads self.results_log *)
                        | Some o2 => match wo_log o2 with Some ref => wyield w' g ref 0 | None => (BadIndex, w') end
                        | None => (BadIndex, w')
                        end
              end
        end
    end.
  Definition step (w : world) (o : op) : out * world :=
    match o with
    | OpRun i d clock fuel => wrun w i d clock fuel
    | OpRunIter i d => (NoOut, World (w_objs w) (w_its w) (w_heap w) (w_gens w ++ [GNew i d]))
    | OpNext g clock fuel =>
        match nth_error (w_gens w) g with
        | None => (BadIndex, w)
        | Some (GNew i d) => wstart w g i d clock fuel
        | Some (GList log idx) => wyield w g log idx
        | Some GDone => (StopIteration, w)
        end
    | OpIter r o =>
        match nth_error (w_its w) r with
        | None => (BadIndex, w)
        | Some it => (NoOut, World (w_objs w) (upd (w_its w) r (exec1 it o)) (w_heap w) (w_gens w))
        end
    end.
  Fixpoint outs (w : world) (os : list op) : list out :=
    match os with [] => [] | o :: t => let (x, w') := step w o in x :: outs w' t end.

  (** The specification: nothing is shared.  Every run starts from the objects as they were created, and every generator
      has its own private list of results still to be delivered. *)
  Inductive sgen := SNew (i : nat) (d : data) | SRest (l : list result).
  Definition fresh_obj (objs : list wobj) (its : list (iterator F)) (i : nat) : option aobj :=
    match nth_error objs i with
    | None => None
    | Some o => match nth_error its (wo_it o) with None => None | Some it => Some (AObj (wo_alg o) (wo_priors o) it None) end
    end.
  Definition deliver (gs : list sgen) (g : nat) (l : list result) : out * list sgen :=
    match l with [] => (StopIteration, upd gs g (SRest [])) | r :: t => (Yield r, upd gs g (SRest t)) end.
  Definition sstep (objs : list wobj) (its : list (iterator F)) (gs : list sgen) (o : op) : out * list sgen :=
    match o with
    | OpRun i d clock fuel =>
        (match fresh_obj objs its i with Some ob => RunOut (fst (run clock fuel ob d)) | None => BadIndex end, gs)
    | OpRunIter i d => (NoOut, gs ++ [SNew i d])
    | OpNext g clock fuel =>
        match nth_error gs g with
        | None => (BadIndex, gs)
        | Some (SNew i d) =>
            match fresh_obj objs its i with
            | None => (BadIndex, gs)
            | Some ob => match fst (run_iter clock fuel ob d) with
                         | Ok l => deliver gs g l
                         | Err e => (Raise e, upd gs g (SRest []))
                         end
            end
        | Some (SRest l) => deliver gs g l
        end
    | OpIter r _ => (match nth_error its r with Some _ => NoOut | None => BadIndex end, gs)
    end.
  Fixpoint souts (objs : list wobj) (its : list (iterator F)) (gs : list sgen) (os : list op) : list out :=
    match os with [] => [] | o :: t => let (x, gs') := sstep objs its gs o in x :: souts objs its gs' t end.
  Definition op_real (o : op) : Prop := match o with OpRun _ d _ _ | OpRunIter _ d => real d | _ => True end.

  Lemma nth_upd {A} (l : list A) i j (x : A) : nth_error (upd l i x) j = if Nat.eqb i j then match nth_error l i with Some _ => Some x | None => None end else nth_error l j.
  Proof.
    unfold upd. destruct (nth_error l i) as [y|] eqn:E.
    - assert (L : i < length l) by (apply nth_error_Some; congruence).
      destruct (Nat.eqb_spec i j) as [<-|N].
      + rewrite nth_error_app2; rewrite firstn_length_le by lia; [|lia]. now rewrite Nat.sub_diag.
      + destruct (Nat.lt_ge_cases j i) as [H|H].
        * rewrite nth_error_app1 by (rewrite firstn_length_le; lia). clear - H L. revert j l H L. induction i as [|i IH]; intros j l H L; [lia|].
          destruct l as [|a l]; [cbn in L; lia|]. destruct j as [|j]; [reflexivity|]. cbn. apply IH; cbn in L; lia.
        * rewrite nth_error_app2; rewrite firstn_length_le by lia; [|lia].
          replace (j - i) with (Datatypes.S (j - Datatypes.S i)) by lia. cbn [nth_error].
          rewrite <- (firstn_skipn (Datatypes.S i) l) at 2.
          rewrite nth_error_app2; rewrite firstn_length_le by lia; [|lia]. reflexivity.
    - destruct (Nat.eqb_spec i j) as [<-|N]; [exact E|reflexivity].
  Qed.
  Lemma upd_length {A} (l : list A) i (x : A) : length (upd l i x) = length l.
  Proof.
    unfold upd. destruct (nth_error l i) eqn:E; [|reflexivity]. assert (L : i < length l) by (apply nth_error_Some; congruence).
    rewrite app_length. cbn [length]. rewrite firstn_length_le, skipn_length; lia.
  Qed.

  (** what ties the world to the specification *)
  Definition same_obj (o o' : wobj) : Prop := wo_alg o = wo_alg o' /\ wo_priors o = wo_priors o' /\ wo_it o = wo_it o'.
  Definition gen_ok (heap : list (list result)) (g : gen) (s : sgen) : Prop :=
    match g, s with
    | GNew i d, SNew i' d' => i = i' /\ d = d' /\ real d
    | GList log idx, SRest l => exists l0, nth_error heap log = Some l0 /\ skipn idx l0 = l
    | GDone, SRest [] => True
    | _, _ => False
    end.
  Definition wok (objs : list wobj) (its : list (iterator F)) (w : world) (gs : list sgen) : Prop :=
    (forall i, match nth_error (w_objs w) i, nth_error objs i with Some o, Some o' => same_obj o o' | None, None => True | _, _ => False end) /\
    (forall r, match nth_error (w_its w) r, nth_error its r with Some a, Some b => reset a = reset b | None, None => True | _, _ => False end) /\
    (forall g, match nth_error (w_gens w) g, nth_error gs g with Some a, Some b => gen_ok (w_heap w) a b | None, None => True | _, _ => False end).

  Lemma skipn_cons {A} n (l : list A) x : nth_error l n = Some x -> skipn n l = x :: skipn (Datatypes.S n) l.
  Proof. revert l. induction n as [|n IH]; intros [|y l] H; try discriminate; [now injection H as ->|]. cbn in *. rewrite (IH l H). reflexivity. Qed.

  Lemma step_ok objs its w gs o : wok objs its w gs -> op_real o ->
    fst (step w o) = fst (sstep objs its gs o) /\ wok objs its (snd (step w o)) (snd (sstep objs its gs o)).
  Proof.
    intros (HO & HI & HG) Hr.
    (* looking up an object and its iterator on both sides *)
    assert (LK : forall i, (exists o it it', nth_error (w_objs w) i = Some o /\ nth_error (w_its w) (wo_it o) = Some it /\
                  fresh_obj objs its i = Some (AObj (wo_alg o) (wo_priors o) it' None) /\ reset it = reset it') \/
                (fresh_obj objs its i = None /\ (nth_error (w_objs w) i = None \/
                   exists o, nth_error (w_objs w) i = Some o /\ nth_error (w_its w) (wo_it o) = None))).
    { intros i. specialize (HO i). unfold fresh_obj. destruct (nth_error (w_objs w) i) as [o1|] eqn:E1, (nth_error objs i) as [o2|] eqn:E2; try contradiction; auto.
      destruct HO as (A1 & A2 & A3). specialize (HI (wo_it o1)). rewrite <- A3.
      destruct (nth_error (w_its w) (wo_it o1)) as [it1|] eqn:E3, (nth_error its (wo_it o1)) as [it2|] eqn:E4; try contradiction.
      - left. exists o1, it1, it2. rewrite A1, A2. auto.
      - right. split; [reflexivity|]. right. exists o1. auto. }
    assert (HO' : forall i o wl, nth_error (w_objs w) i = Some o ->
       forall j, match nth_error (upd (w_objs w) i (WObj (wo_alg o) (wo_priors o) (wo_it o) wl)) j, nth_error objs j with
                 Some o, Some o' => same_obj o o' | None, None => True | _, _ => False end).
    { intros i o1 wl E j. rewrite nth_upd, E. destruct (Nat.eqb_spec i j) as [<-|N]; [|apply HO]. specialize (HO i). rewrite E in HO. exact HO. }
    assert (HI' : forall r it it', nth_error (w_its w) r = Some it -> reset it' = reset it ->
       forall j, match nth_error (upd (w_its w) r it') j, nth_error its j with Some a, Some b => reset a = reset b | None, None => True | _, _ => False end).
    { intros r it1 it2 E Er j. rewrite nth_upd, E. destruct (Nat.eqb_spec r j) as [<-|N]; [|apply HI]. specialize (HI r). rewrite E in HI.
      destruct (nth_error its r); [congruence|contradiction]. }
    assert (HH : forall extra g s, gen_ok (w_heap w) g s -> gen_ok (w_heap w ++ extra) g s).
    { intros extra [i1 d1|log idx|] [i2 d2|l] H; cbn in *; auto. destruct H as (l0 & H1 & H2). exists l0. split; [|exact H2].
      rewrite nth_error_app1; [exact H1|]. apply nth_error_Some. congruence. }
    assert (HGu : forall heap g a b, (forall g s, gen_ok (w_heap w) g s -> gen_ok heap g s) -> gen_ok heap a b ->
       forall j, match nth_error (upd (w_gens w) g a) j, nth_error (upd gs g b) j with
                 Some a, Some b => gen_ok heap a b | None, None => True | _, _ => False end).
    { intros heap g a b Hm Hab j. rewrite !nth_upd. pose proof (HG g) as Hg. pose proof (HG j) as Hj.
      destruct (Nat.eqb_spec g j) as [<-|N].
      - destruct (nth_error (w_gens w) g), (nth_error gs g); try contradiction; auto.
      - destruct (nth_error (w_gens w) j), (nth_error gs j); try contradiction; auto. }
    destruct o as [i d clock fuel|i d|g clock fuel|r o]; cbn [step sstep].
    - unfold wrun. destruct (LK i) as [(o & it & it' & E1 & E2 & E3 & E4)|(E3 & E)].
      + rewrite E1, E2, E3.
        destruct (run_reset d clock fuel (wo_alg o) (wo_priors o) it it' None None Hr E4) as (Q1 & _ & (Q2 & Q3 & Q4) & _).
        rewrite <- Q1. destruct (run clock fuel (AObj (wo_alg o) (wo_priors o) it None) d) as [r o'] eqn:Er. cbn in *.
        split; [reflexivity|]. split; [|split]; cbn.
        * now apply HO'.
        * now apply HI' with it.
        * exact HG.
      + rewrite E3. destruct E as [E|(o & E & E')]; rewrite E, ?E'; cbn; repeat split; auto.
    - cbn. split; [reflexivity|]. split; [exact HO|]. split; [exact HI|]. cbn. intros g.
      assert (L : length (w_gens w) = length gs).
      { assert (N : forall n, nth_error (w_gens w) n = None <-> nth_error gs n = None).
        { intros n. specialize (HG n). destruct (nth_error (w_gens w) n), (nth_error gs n); try contradiction; split; congruence. }
        apply Nat.le_antisymm; apply nth_error_None, N, nth_error_None; lia. }
      destruct (Nat.lt_ge_cases g (length gs)) as [H|H].
      + rewrite !nth_error_app1 by lia. apply HG.
      + rewrite !nth_error_app2 by lia. rewrite L. destruct (g - length gs) as [|n]; [cbn; auto|]. destruct n; cbn; auto.
    - pose proof (HG g) as Hg. destruct (nth_error (w_gens w) g) as [gg|] eqn:Eg, (nth_error gs g) as [sg|] eqn:Es; try contradiction.
      2:{ cbn. repeat split; auto. }
      destruct gg as [i d|log idx|], sg as [i' d'|l]; cbn in Hg; try contradiction.
      + destruct Hg as (<- & <- & Hd). unfold wstart. destruct (LK i) as [(o & it & it' & E1 & E2 & E3 & E4)|(E3 & E)].
        * rewrite E1, E2, E3.
          destruct (run_reset d clock fuel (wo_alg o) (wo_priors o) it it' None None Hd E4) as (_ & Q1 & _ & (Q2 & Q3 & Q4)).
          rewrite <- Q1.
          assert (Qe : num_claims d = 0 -> fst (run_iter clock fuel (AObj (wo_alg o) (wo_priors o) it None) d) = Err EmptyDatasetError).
          { intros Z. unfold run_iter. now rewrite Z. }
          assert (Ql : forall l, fst (run_iter clock fuel (AObj (wo_alg o) (wo_priors o) it None) d) = Ok l ->
                         o_log (snd (run_iter clock fuel (AObj (wo_alg o) (wo_priors o) it None) d)) = Some l).
          { destruct Hd as (bb & impf & ts & Hb). pose proof (build_rep _ _ _ _ Hb) as R. destruct ts as [|t0 tr].
            - rewrite Qe; [discriminate|]. now rewrite (rep_nc _ _ _ R).
            - rewrite (run_iter_char clock (t0 :: tr) impf d R) by discriminate.
              destruct (init (wo_alg o) (wo_priors o) d) as [x0|]; [|discriminate].
              destruct (it_loop _ _ _ fuel (reset it) 0) as [[r k] it'']. cbn. destruct r; [|discriminate].
              destruct (final _ _ _); [|discriminate]. congruence. }
          destruct (run_iter clock fuel (AObj (wo_alg o) (wo_priors o) it None) d) as [r o'] eqn:Er. cbn [fst snd] in *.
          destruct (Nat.eqb_spec (num_claims d) 0) as [Z|NZ].
          -- rewrite (Qe Z). cbn [fst snd]. split; [reflexivity|]. split; [exact HO|]. split; [exact HI|]. cbn [w_gens w_heap].
             apply HGu; cbn; auto.
          -- destruct r as [l|e].
             ++ rewrite nth_upd, E1, Nat.eqb_refl. cbn [wo_log]. rewrite (Ql l eq_refl).
                unfold wyield. cbn [w_heap w_objs w_its w_gens].
                assert (EH : nth_error (w_heap w ++ [l]) (length (w_heap w)) = Some l).
                { rewrite nth_error_app2, Nat.sub_diag by lia. reflexivity. }
                rewrite EH. destruct l as [|r0 l]; cbn [nth_error deliver fst snd].
                ** split; [reflexivity|]. split; [now apply HO'|]. split; [now apply HI' with it|]. cbn [w_gens w_heap]. apply HGu; cbn; auto.
                ** split; [reflexivity|]. split; [now apply HO'|]. split; [now apply HI' with it|]. cbn [w_gens w_heap].
                   apply HGu; [auto|]. cbn. exists (r0 :: l). auto.
             ++ cbn [fst snd]. split; [reflexivity|]. split; [now apply HO'|]. split; [now apply HI' with it|]. cbn [w_gens w_heap].
                apply HGu; cbn; auto.
        * rewrite E3. assert (X : fst (wstart w g i d clock fuel) = BadIndex /\ snd (wstart w g i d clock fuel) = w).
          { unfold wstart. destruct E as [E|(o & E & E')]; rewrite E, ?E'; auto. }
          unfold wstart in X. destruct X as [-> ->]. cbn. repeat split; auto.
      + destruct Hg as (l0 & E0 & El). unfold wyield. rewrite E0. destruct (nth_error l0 idx) as [r|] eqn:En.
        * rewrite (skipn_cons _ _ _ En) in El. subst l. cbn [deliver fst snd]. split; [reflexivity|]. split; [exact HO|]. split; [exact HI|].
          cbn [w_gens w_heap]. apply HGu; [auto|]. cbn. exists l0. auto.
        * assert (l = []). { rewrite <- El. apply skipn_all2. now apply nth_error_None. } subst l. rewrite H. cbn [deliver fst snd].
          split; [reflexivity|]. split; [exact HO|]. split; [exact HI|]. cbn [w_gens w_heap]. apply HGu; cbn; auto.
      + destruct l; [|contradiction]. cbn [deliver fst snd]. split; [reflexivity|]. split; [exact HO|]. split; [exact HI|].
        cbn [w_gens w_heap]. intros j. rewrite nth_upd. rewrite Es. destruct (Nat.eqb_spec g j) as [<-|N]; [now rewrite Eg|apply HG].
    - specialize (HI r) as Hir. destruct (nth_error (w_its w) r) as [it|] eqn:E1, (nth_error its r) as [it'|] eqn:E2; try contradiction.
      + cbn. split; [reflexivity|]. split; [exact HO|]. split; [|exact HG]. cbn. apply HI' with it; [exact E1|].
        destruct o; cbn; [apply compare_reset|now destruct it].
      + cbn. repeat split; auto.
  Qed.

  (** C27 + C30.  For every schedule of runs, generator creations, generator advances and direct uses of iterators, over
      any algorithm objects sharing any iterator objects, every output is the one of the specification in which nothing
      is shared and nothing has been used before. *)
  Theorem C30_no_interference objs its os : Forall op_real os ->
    outs (World objs its [] []) os = souts objs its [] os.
  Proof.
    assert (G : forall os w gs, wok objs its w gs -> Forall op_real os -> outs w os = souts objs its gs os).
    { clear os. induction os as [|o os IH]; intros w gs Hw HF; [reflexivity|]. inversion HF as [|? ? Ho HF']; subst. cbn [outs souts].
      destruct (step_ok objs its w gs o Hw Ho) as [E1 E2].
      destruct (step w o) as [x w'], (sstep objs its gs o) as [x' gs']. cbn in E1, E2. subst x'. f_equal. now apply IH. }
    intros HF. apply G; [|exact HF]. split; [|split]; cbn.
    - intros i. destruct (nth_error objs i); unfold same_obj; auto.
    - intros r. destruct (nth_error its r); auto.
    - intros g. now destruct g.
  Qed.

  (** C27.  After any history, [objs[i].run(d)] returns what it would have returned first. *)
  Theorem C27_history_independent objs its history i d clock fuel : Forall op_real history -> real d ->
    last (outs (World objs its [] []) (history ++ [OpRun i d clock fuel])) BadIndex =
    last (outs (World objs its [] []) [OpRun i d clock fuel]) BadIndex.
  Proof.
    intros HF Hd. rewrite !C30_no_interference; [|repeat constructor; assumption|apply Forall_app; split; [assumption|repeat constructor; assumption]].
    assert (G : forall h gs, last (souts objs its gs (h ++ [OpRun i d clock fuel])) BadIndex =
              match fresh_obj objs its i with Some ob => RunOut (fst (run clock fuel ob d)) | None => BadIndex end).
    { clear. induction h as [|o h IH]; intros gs; [reflexivity|]. cbn [app souts]. destruct (sstep objs its gs o) as [x gs'].
      rewrite <- (IH gs'). destruct (souts objs its gs' (h ++ [OpRun i d clock fuel])) eqn:E; [|reflexivity].
      exfalso. destruct h; cbn in E; [discriminate|]. destruct (sstep objs its gs' o0); discriminate. }
    rewrite G. cbn. reflexivity.
  Qed.

  (** ** C28, C29: iteration counts and partial results *)
  Definition same_but_time (r r' : result) : Prop :=
    r_trust r = r_trust r' /\ r_belief r = r_belief r' /\ r_iterations r = r_iterations r'.
  Lemma it_loop_nobrk (a b : nat -> vec F) brk fuel it k j : k <= j < snd (fst (it_loop a b brk fuel it k)) -> brk j = false.
  Proof.
    revert it k. induction fuel as [|n IH]; intros it k; cbn; [lia|]. destruct (finished it) as [[|]|]; cbn; try lia.
    destruct (brk k) eqn:Eb; [cbn; lia|]. destruct (compare it (a k) (b k)) as [[[]|e] it']; [|cbn; lia].
    intros H. destruct (Nat.eq_dec j k) as [->|N]; [exact Eb|]. apply (IH it' (Datatypes.S k)). lia.
  Qed.
  Lemma final_other (a : alg F) it it' x : a <> UnboundedSums -> final a it x = final a it' x.
  Proof. destruct a; cbn; congruence. Qed.

  (** the algorithms whose partial results include the initial scores and end in the returned scores *)
  Definition plain (a : alg F) : Prop := match a with CRH _ | UnboundedSums => False | _ => True end.

  Section OneRun.
    Variables (b : bool) (impf : option (V -> W -> W -> option F)) (ts : list (S * V * W)) (d : data).
    Hypothesis Hb : build b impf ts = Ok d.

    Lemma run_cases clock fuel a p it lg r o' : run clock fuel (AObj a p it lg) d = (Ok r, o') ->
      ts <> [] /\ exists x0 k it', init a p d = Some x0 /\
        it_loop (cmp1 a d x0) (cmp2 a d x0) (stops a d x0) fuel (reset it) 0 = ((Ok tt, k), it') /\
        exists x, final a it' (scores a d x0 k) = Ok x /\
          r = Result (tdict ts (fst x)) (bdict ts (snd x)) (n_sub (clock 1) (clock 0)) (Some k).
    Proof.
      intros H. pose proof (build_rep _ _ _ _ Hb) as R. destruct ts as [|t0 tr] eqn:Ets.
      - destruct (C26_empty b impf [] d Hb clock fuel (AObj a p it lg)) as [Q _]. destruct (Q eq_refl) as (Q1 & _). congruence.
      - rewrite <- Ets in *. assert (NE : ts <> []) by (rewrite Ets; discriminate). split; [exact NE|].
        rewrite (run_char clock ts impf d R NE) in H. destruct (init a p d) as [x0|] eqn:E0; [|discriminate].
        destruct (it_loop _ _ _ fuel (reset it) 0) as [[q k] it'] eqn:El. destruct q as [[]|e]; [|discriminate].
        destruct (final a it' (scores a d x0 k)) as [x|e] eqn:Ef; [|discriminate]. injection H as <- _.
        exists x0, k, it'. repeat split; auto. eauto.
    Qed.

    (** C28.  The reported number of iterations: with FixedIterator(n) it is n, or fewer if the algorithm itself stops
        early (only Investment, PooledInvestment and TruthFinder can); with ConvergenceIterator at most the limit. *)
    Theorem C28_fixed clock fuel a p n it_state lg r o' :
      run clock fuel (AObj a p (IFixed n it_state) lg) d = (Ok r, o') ->
      exists k, r_iterations r = Some k /\ (Z.of_nat k <= Z.max 0 n)%Z /\
        (match a with Investment _ | PooledInvestment _ | TruthFinder _ _ _ => True | _ => k = Z.to_nat n end) /\
        it_count (o_it o') = k.
    Proof.
      intros H. pose proof H as H0. apply run_cases in H. destruct H as (NE & x0 & k & it' & E0 & El & x & Ef & ->).
      exists k. split; [reflexivity|].
      assert (It : it_count it' = k).
      { pose proof (it_loop_count (cmp1 a d x0) (cmp2 a d x0) (stops a d x0) fuel (reset (IFixed n it_state)) 0 eq_refl) as C.
        rewrite El in C. cbn in C. auto. }
      assert (Io : o_it o' = it').
      { rewrite (run_char clock ts impf d (build_rep _ _ _ _ Hb) NE), E0, El, Ef in H0. injection H0 as <-. reflexivity. }
      assert (G : forall fuel m j, it_loop (cmp1 a d x0) (cmp2 a d x0) (stops a d x0) fuel (IFixed n m) j = ((Ok tt, k), it') ->
                (Z.of_nat m <= Z.max 0 n)%Z -> m = j ->
                (Z.of_nat k <= Z.max 0 n)%Z /\ (stops a d x0 k = true \/ (n <= Z.of_nat k)%Z)).
      { clear. induction fuel as [|f IH]; intros m j H Hm ->; [discriminate|]. cbn [it_loop finished] in H.
        destruct (Z.leb_spec n (Z.of_nat j)); [injection H as <- <-; split; [lia|right; lia]|].
        destruct (stops a d x0 j) eqn:Es; [injection H as <- <-; split; [lia|now left]|]. cbn [compare] in H.
        apply IH in H; [exact H|lia|reflexivity]. }
      cbn [reset] in El. destruct (G fuel 0 0 El) as [G1 G2]; [lia|reflexivity|]. split; [exact G1|]. rewrite Io. split; [|exact It].
      assert (NS : match a with Investment _ | PooledInvestment _ | TruthFinder _ _ _ => True | _ => stops a d x0 k = false end).
      { destruct a; auto; unfold stops; cbn [round]; destruct (scores _ d x0 k) as [t0 b0]; cbn [sums_upd avlog_upd crh_upd usums_upd].
        all: repeat match goal with |- context [match ?e with Some _ => _ | None => _ end] => destruct e end; reflexivity. }
      destruct a; auto; destruct G2 as [G2|G2]; try congruence; lia.
    Qed.
    Theorem C28_convergence clock fuel a p m thr lim c cur lg r o' :
      run clock fuel (AObj a p (IConv m thr lim c cur) lg) d = (Ok r, o') ->
      exists k, r_iterations r = Some k /\ (Z.of_nat k <= Z.max 0 lim)%Z /\ it_count (o_it o') = k.
    Proof.
      intros H. pose proof H as H0. apply run_cases in H. destruct H as (NE & x0 & k & it' & E0 & El & x & Ef & ->).
      exists k. split; [reflexivity|].
      assert (It : it_count it' = k).
      { pose proof (it_loop_count (cmp1 a d x0) (cmp2 a d x0) (stops a d x0) fuel (reset (IConv m thr lim c cur)) 0 eq_refl) as C.
        rewrite El in C. cbn in C. auto. }
      assert (Io : o_it o' = it').
      { rewrite (run_char clock ts impf d (build_rep _ _ _ _ Hb) NE), E0, El, Ef in H0. injection H0 as <-. reflexivity. }
      rewrite Io. split; [|exact It].
      assert (G : forall fuel j cur, it_loop (cmp1 a d x0) (cmp2 a d x0) (stops a d x0) fuel (IConv m thr lim j cur) j = ((Ok tt, k), it') ->
                (Z.of_nat j <= Z.max 0 lim)%Z -> (Z.of_nat k <= Z.max 0 lim)%Z).
      { clear. induction fuel as [|f IH]; intros j cur H Hm; [discriminate|]. cbn [it_loop finished] in H.
        destruct (match cur with Some x => n_ltb x thr | None => false end); [injection H as <- <-; exact Hm|].
        destruct (Z.leb_spec lim (Z.of_nat j)); [discriminate|]. destruct (stops a d x0 j); [injection H as <- <-; exact Hm|].
        cbn [compare] in H. destruct (get_distance m _ _); [|discriminate]. apply IH in H; [exact H|lia]. }
      apply (G fuel 0 None); [exact El|lia].
    Qed.
    (** C28.  The reported scores are those of the reported round: whatever iterator stopped the loop, the result is that
        of FixedIterator(iterations).  (For UnboundedSums a FixedIterator cannot be used: see C40.) *)
    Theorem C28_scores_of_that_round clock fuel a p it lg r o' k : a <> UnboundedSums ->
      run clock fuel (AObj a p it lg) d = (Ok r, o') -> r_iterations r = Some k ->
      forall clock' fuel' lg', k < fuel' ->
      exists r', fst (run clock' fuel' (AObj a p (IFixed (Z.of_nat k) 0) lg') d) = Ok r' /\ same_but_time r r'.
    Proof.
      intros Ha H Hk clock' fuel' lg' Hf. apply run_cases in H. destruct H as (NE & x0 & k' & it' & E0 & El & x & Ef & ->).
      cbn in Hk. injection Hk as ->.
      rewrite (run_char clock' ts impf d (build_rep _ _ _ _ Hb) NE), E0. cbn [reset].
      rewrite (it_loop_fixed _ _ _ fuel' (Z.of_nat k) 0 0 k).
      - rewrite (final_other a _ it' _ Ha), Ef. eexists. split; [reflexivity|]. repeat split.
      - lia.
      - intros j Hj. split; [|lia]. apply (it_loop_nobrk (cmp1 a d x0) (cmp2 a d x0) (stops a d x0) fuel (reset it) 0). rewrite El. cbn. lia.
      - right. lia.
      - lia.
    Qed.

    (** C29.  run_iter against run, for Sums, AverageLog, Investment, PooledInvestment and TruthFinder: both fail in the
        same way, or the partial results are numbered 0..k, the j-th is what FixedIterator(j) gives, the last is the
        result of run (times aside). *)
    Theorem C29_partial_results clock clock' fuel a p it lg lg' : plain a ->
      match fst (run clock fuel (AObj a p it lg) d), fst (run_iter clock' fuel (AObj a p it lg') d) with
      | Ok r, Ok l =>
          exists k, r_iterations r = Some k /\ length l = Datatypes.S k /\
            (exists z, nth_error l k = Some z /\ same_but_time z r) /\
            forall j, j <= k -> exists z, nth_error l j = Some z /\ r_iterations z = Some j /\
              forall clock'' fuel'', j < fuel'' ->
                exists rj, fst (run clock'' fuel'' (AObj a p (IFixed (Z.of_nat j) 0) None) d) = Ok rj /\ same_but_time z rj
      | Err e, Err e' => e = e'
      | _, _ => False
      end.
    Proof.
      intros Hp. pose proof (build_rep _ _ _ _ Hb) as R. destruct (list_eq_dec (fun t t' => eq_dec_of t t') ts []) as [->|NE].
      { destruct (C26_empty b impf [] d Hb clock fuel (AObj a p it lg)) as [Q _]. destruct (Q eq_refl) as (-> & _).
        destruct (C26_empty b impf [] d Hb clock' fuel (AObj a p it lg')) as [Q' _]. destruct (Q' eq_refl) as (_ & -> & _). reflexivity. }
      rewrite (run_char clock ts impf d R NE), (run_iter_char clock' ts impf d R NE).
      destruct (init a p d) as [x0|] eqn:E0; [|reflexivity].
      destruct (it_loop (cmp1 a d x0) (cmp2 a d x0) (stops a d x0) fuel (reset it) 0) as [[q k] it'] eqn:El. cbn [fst].
      destruct q as [[]|e]; [|reflexivity].
      assert (Fi : forall it x, final a it x = Ok x) by (destruct a; cbn in *; tauto). rewrite Fi.
      assert (Li : logs_initial a = true) by (destruct a; cbn in *; tauto).
      exists k. split; [reflexivity|]. unfold partial_results, initial_log. rewrite Li. cbn [length app].
      split; [cbn; now rewrite map_length, seq_length|].
      assert (Nth : forall j, j <= k -> exists n, nth_error (partial_result clock' ts d a x0 1 0 :: map (fun j => partial_result clock' ts d a x0 (1 + j) j) (seq 1 k)) j
                 = Some (partial_result clock' ts d a x0 n j)).
      { intros [|j] Hj; [exists 1; reflexivity|]. exists (2 + j). cbn [nth_error]. rewrite nth_error_map.
        assert (Sj : nth_error (seq 1 k) j = Some (Datatypes.S j)).
        { rewrite (nth_error_nth' (seq 1 k) 0) by (rewrite seq_length; lia). rewrite seq_nth by lia. reflexivity. }
        rewrite Sj. reflexivity. }
      split.
      - destruct (Nth k (le_n k)) as [n E]. eexists. split; [exact E|]. repeat split.
      - intros j Hj. destruct (Nth j Hj) as [n E]. eexists. split; [exact E|]. split; [reflexivity|].
        intros clock'' fuel'' Hf. rewrite (run_char clock'' ts impf d R NE), E0. cbn [reset].
        rewrite (it_loop_fixed _ _ _ fuel'' (Z.of_nat j) 0 0 j).
        + cbn [fst]. rewrite Fi. eexists. split; [reflexivity|]. repeat split.
        + lia.
        + intros i Hi. split; [|lia]. apply (it_loop_nobrk (cmp1 a d x0) (cmp2 a d x0) (stops a d x0) fuel (reset it) 0). rewrite El. cbn. lia.
        + right. lia.
        + lia.
    Qed.
    (** CRH does not report its initial scores: the partial results are numbered 1..k, and are those of FixedIterator(1..k). *)
    Theorem C29_crh clock clock' fuel eps p it lg lg' :
      match fst (run clock fuel (AObj (CRH eps) p it lg) d), fst (run_iter clock' fuel (AObj (CRH eps) p it lg') d) with
      | Ok r, Ok l =>
          exists k, r_iterations r = Some k /\ length l = k /\
            (forall j z, nth_error l j = Some z -> r_iterations z = Some (Datatypes.S j) /\
              forall clock'' fuel'', Datatypes.S j < fuel'' ->
                exists rj, fst (run clock'' fuel'' (AObj (CRH eps) p (IFixed (Z.of_nat (Datatypes.S j)) 0) None) d) = Ok rj /\ same_but_time z rj) /\
            (k <> 0 -> exists z, nth_error l (k - 1) = Some z /\ same_but_time z r)
      | Err e, Err e' => e = e'
      | _, _ => False
      end.
    Proof.
      pose proof (build_rep _ _ _ _ Hb) as R. destruct (list_eq_dec (fun t t' => eq_dec_of t t') ts []) as [->|NE].
      { destruct (C26_empty b impf [] d Hb clock fuel (AObj (CRH eps) p it lg)) as [Q _]. destruct (Q eq_refl) as (-> & _).
        destruct (C26_empty b impf [] d Hb clock' fuel (AObj (CRH eps) p it lg')) as [Q' _]. destruct (Q' eq_refl) as (_ & -> & _). reflexivity. }
      rewrite (run_char clock ts impf d R NE), (run_iter_char clock' ts impf d R NE). cbn [init].
      set (x0 := (vzeros (num_sources d), vdivs (source_counts d) (n_ofZ (Z.of_nat (num_sources d))))).
      destruct (it_loop (cmp1 (CRH eps) d x0) (cmp2 (CRH eps) d x0) (stops (CRH eps) d x0) fuel (reset it) 0) as [[q k] it'] eqn:El. cbn [fst].
      destruct q as [[]|e]; [|reflexivity]. cbn [final]. exists k. split; [reflexivity|].
      unfold partial_results, initial_log. cbn [logs_initial app length]. split; [now rewrite map_length, seq_length|].
      assert (Sj : forall j, j < k -> nth_error (seq 1 k) j = Some (Datatypes.S j)).
      { intros j Hj. rewrite (nth_error_nth' (seq 1 k) 0) by (rewrite seq_length; lia). rewrite seq_nth by lia. reflexivity. }
      split.
      - intros j z Hz. rewrite nth_error_map in Hz. destruct (Nat.lt_ge_cases j k) as [H|H].
        + rewrite (Sj j H) in Hz. cbn [option_map] in Hz. injection Hz as <-. split; [reflexivity|]. intros clock'' fuel'' Hf. rewrite (run_char clock'' ts impf d R NE). cbn [init reset].
          fold x0. rewrite (it_loop_fixed _ _ _ fuel'' (Z.of_nat (Datatypes.S j)) 0 0 (Datatypes.S j)).
          * cbn [fst final]. eexists. split; [reflexivity|]. repeat split.
          * lia.
          * intros i Hi. split; [|lia]. apply (it_loop_nobrk (cmp1 (CRH eps) d x0) (cmp2 (CRH eps) d x0) (stops (CRH eps) d x0) fuel (reset it) 0). rewrite El. cbn [fst snd]. lia.
          * right. lia.
          * lia.
        + assert (N : nth_error (seq 1 k) j = None) by (apply nth_error_None; rewrite seq_length; lia). rewrite N in Hz. discriminate.
      - intros Hk. eexists. rewrite nth_error_map, (Sj (k - 1)) by lia. split; [reflexivity|].
        replace (Datatypes.S (k - 1)) with k by lia. repeat split.
    Qed.
    (** UnboundedSums reports raw scores while it iterates, run returns their ranks. *)
    Theorem C29_unbounded_sums clock clock' fuel p it lg lg' :
      match fst (run clock fuel (AObj UnboundedSums p it lg) d), fst (run_iter clock' fuel (AObj UnboundedSums p it lg') d) with
      | Ok r, Ok l =>
          exists k vt vb rt rb z, r_iterations r = Some k /\ length l = Datatypes.S k /\ nth_error l k = Some z /\ (forall j z, nth_error l j = Some z -> r_iterations z = Some j) /\
            length vt = num_sources d /\ length vb = num_claims d /\
            get_source_trust_dict d vt = Some (r_trust z) /\ get_belief_dict d vb = Some (r_belief z) /\
            get_ranking_vector vt = Some rt /\ get_ranking_vector vb = Some rb /\
            get_source_trust_dict d rt = Some (r_trust r) /\ get_belief_dict d rb = Some (r_belief r)
      | Err e, Err e' => e = e'
      | _, _ => False
      end.
    Proof.
      pose proof (build_rep _ _ _ _ Hb) as R. destruct (list_eq_dec (fun t t' => eq_dec_of t t') ts []) as [->|NE].
      { destruct (C26_empty b impf [] d Hb clock fuel (AObj UnboundedSums p it lg)) as [Q _]. destruct (Q eq_refl) as (-> & _).
        destruct (C26_empty b impf [] d Hb clock' fuel (AObj UnboundedSums p it lg')) as [Q' _]. destruct (Q' eq_refl) as (_ & -> & _). reflexivity. }
      rewrite (run_char clock ts impf d R NE), (run_iter_char clock' ts impf d R NE).
      destruct (init UnboundedSums p d) as [x0|] eqn:E0; [|reflexivity].
      destruct (it_loop (cmp1 UnboundedSums d x0) (cmp2 UnboundedSums d x0) (stops UnboundedSums d x0) fuel (reset it) 0) as [[q k] it'] eqn:El. cbn [fst].
      destruct q as [[]|e]; [|reflexivity]. destruct (final UnboundedSums it' (scores UnboundedSums d x0 k)) as [x|e] eqn:Ef; [|reflexivity].
      pose proof (scores_shaped clock ts impf d R NE UnboundedSums x0 k (init_shaped ts impf d R UnboundedSums p x0 E0)) as Sh.
      pose proof (final_shaped d UnboundedSums it' _ _ Sh Ef) as Sh'.
      cbn in Ef. destruct it'; try discriminate.
      destruct (get_ranking_vector (fst (scores UnboundedSums d x0 k))) as [rt|] eqn:E1; [|discriminate].
      destruct (get_ranking_vector (snd (scores UnboundedSums d x0 k))) as [rb|] eqn:E2; [|discriminate]. injection Ef as <-.
      destruct Sh as [S1 S2], Sh' as [S3 S4]. cbn [fst snd] in S3, S4.
      exists k, (fst (scores UnboundedSums d x0 k)), (snd (scores UnboundedSums d x0 k)), rt, rb.
      exists (partial_result clock' ts d UnboundedSums x0 (Datatypes.S k) k).
      unfold partial_results, initial_log. cbn [logs_initial app length].
      split; [reflexivity|]. split; [cbn; now rewrite map_length, seq_length|]. split.
      { destruct k as [|k]; [reflexivity|]. cbn [nth_error]. rewrite nth_error_map.
        rewrite (nth_error_nth' (seq 1 (Datatypes.S k)) 0) by (rewrite seq_length; lia). rewrite seq_nth by lia. reflexivity. }
      split.
      { intros [|j] z Hz; [cbn [nth_error] in Hz; injection Hz as <-; reflexivity|]. cbn [nth_error] in Hz. rewrite nth_error_map in Hz. destruct (Nat.lt_ge_cases j k) as [H|H].
        + rewrite (nth_error_nth' (seq 1 k) 0) in Hz by (rewrite seq_length; lia). rewrite seq_nth in Hz by lia. cbn [option_map] in Hz. injection Hz as <-. reflexivity.
        + assert (N : nth_error (seq 1 k) j = None) by (apply nth_error_None; rewrite seq_length; lia). rewrite N in Hz. discriminate. }
      split; [exact S1|]. split; [exact S2|].
      unfold partial_result. cbn [r_trust r_belief fst snd].
      rewrite !(trust_dict_vec ts impf d R), !(belief_dict_vec ts impf d R) by assumption. auto 10.
    Qed.

    (** C28.  With FixedIterator a run on a non-empty dataset always returns: it neither raises nor loops
        (UnboundedSums, which needs an ordinal iterator, and an invalid priors value apart). *)
    Theorem C28_fixed_returns clock fuel a p n st lg : ts <> [] -> a <> UnboundedSums -> p <> BadPrior -> Z.to_nat n < fuel ->
      exists r, fst (run clock fuel (AObj a p (IFixed n st) lg) d) = Ok r.
    Proof.
      intros NE Ha Hp Hf. pose proof (build_rep _ _ _ _ Hb) as R. rewrite (run_char clock ts impf d R NE).
      destruct (init a p d) as [x0|] eqn:E0.
      2:{ exfalso. destruct a, p; cbn in E0; congruence. }
      cbn [reset]. assert (T : exists k it', it_loop (cmp1 a d x0) (cmp2 a d x0) (stops a d x0) fuel (IFixed n 0) 0 = ((Ok tt, k), it')).
      { assert (G : forall fuel j, Z.to_nat n - j < fuel ->
          exists k it', it_loop (cmp1 a d x0) (cmp2 a d x0) (stops a d x0) fuel (IFixed n j) j = ((Ok tt, k), it')).
        { clear. induction fuel as [|f IH]; intros j Hj; [lia|]. cbn [it_loop finished]. destruct (Z.leb_spec n (Z.of_nat j)); [eauto|].
          destruct (stops a d x0 j); [eauto|]. cbn [compare]. apply IH. lia. }
        apply G. lia. }
      destruct T as (k & it' & ->). cbn [fst]. assert (Fi : forall it x, final a it x = Ok x) by (destruct a; cbn; congruence).
      rewrite Fi. eauto.
    Qed.
    (** C28.  With ConvergenceIterator(limit) a run always ends: it returns or raises ConvergenceError. *)
    Theorem C28_convergence_ends clock fuel a p m thr lim c cur lg : ts <> [] -> a <> UnboundedSums -> p <> BadPrior ->
      m <> BadMeasure -> Z.to_nat lim < fuel ->
      (exists r, fst (run clock fuel (AObj a p (IConv m thr lim c cur) lg) d) = Ok r) \/
      fst (run clock fuel (AObj a p (IConv m thr lim c cur) lg) d) = Err ConvergenceError.
    Proof.
      intros NE Ha Hp Hm Hf. pose proof (build_rep _ _ _ _ Hb) as R. rewrite (run_char clock ts impf d R NE).
      destruct (init a p d) as [x0|] eqn:E0.
      2:{ exfalso. destruct a, p; cbn in E0; congruence. }
      pose proof (init_shaped ts impf d R a p x0 E0) as Sh0.
      assert (Fi : forall it x, final a it x = Ok x) by (destruct a; cbn; congruence).
      assert (Dist : forall j, stops a d x0 j = false -> exists y, get_distance m (cmp1 a d x0 j) (cmp2 a d x0 j) = Ok y).
      { intros j Hs. destruct m; cbn; eauto; [|destruct (_ || _)%bool; eauto|congruence].
        assert (L : length (cmp1 a d x0 j) <> 0 /\ length (cmp2 a d x0 j) = length (cmp1 a d x0 j)).
        { unfold stops in Hs. unfold cmp1, cmp2. pose proof (scores_shaped clock ts impf d R NE a x0 j Sh0) as Sj.
          pose proof (round_cmp_shaped ts impf d R NE a _ Sj) as Q. destruct (round a d (scores a d x0 j)); [congruence|contradiction|].
          destruct Q as [-> ->]. split; [|reflexivity]. apply (ns_pos ts impf d R NE). }
        unfold norm_inf. destruct (npmax_ne (map n_abs (vsub (cmp1 a d x0 j) (cmp2 a d x0 j)))) as [y ->]; [|eauto].
        rewrite map_length. unfold vsub. rewrite zipw_length; lia. }
      cbn [reset].
      assert (G : forall fuel j cur, Z.to_nat lim - j < fuel ->
          (exists k it', it_loop (cmp1 a d x0) (cmp2 a d x0) (stops a d x0) fuel (IConv m thr lim j cur) j = ((Ok tt, k), it')) \/
          (exists k it', it_loop (cmp1 a d x0) (cmp2 a d x0) (stops a d x0) fuel (IConv m thr lim j cur) j = ((Err ConvergenceError, k), it'))).
      { clear - Dist. induction fuel as [|f IH]; intros j cur Hj; [lia|]. cbn [it_loop finished].
        destruct (match cur with Some x => n_ltb x thr | None => false end); [left; eauto|].
        destruct (Z.leb_spec lim (Z.of_nat j)); [right; eauto|]. destruct (stops a d x0 j) eqn:Es; [left; eauto|].
        cbn [compare]. destruct (Dist j Es) as [y ->]. apply IH. lia. }
      destruct (G fuel 0 None) as [(k & it' & ->)|(k & it' & ->)]; [lia|left; cbn [fst]; rewrite Fi; eauto|right; reflexivity].
    Qed.
  End OneRun.
End Run.

(** ** Non-vacuity *)
Module RunExamples.
  Import ListNotations.
  Definition ts1 := Examples.ts1.
  Lemma ds1 : exists d : dataset nat nat nat XR, build true None ts1 = Ok d.
  Proof.
    destruct (build_allow None ts1) as [(_ & d & E & _)|(N & _)]; [now exists d|].
    exfalso. apply N. intros c c' q _ _ H. unfold imp_val in H. destruct (_ && _)%bool; discriminate.
  Qed.
  (* two algorithm objects sharing one iterator, two generators, interleaved: C30 applies *)
  Example c30_schedule : exists d : dataset nat nat nat XR, forall clock fuel,
    Forall op_real [OpRunIter 0 d; OpRunIter 1 d; OpNext 0 clock fuel; OpRun 0 d clock fuel; OpNext 1 clock fuel; OpNext 0 clock fuel;
                    OpIter 0 OReset; OpNext 1 clock fuel].
  Proof. destruct ds1 as [d E]. exists d. intros. repeat constructor; exists true, None, ts1; exact E. Qed.
  (* successful runs of every algorithm but UnboundedSums, and of two iterators *)
  Example c28_runs : exists d : dataset nat nat nat XR, build true None ts1 = Ok d /\
    forall a, a <> UnboundedSums -> exists r, fst (run (fun _ => Fin 0%R) 8 (AObj a FIXED (IFixed 7 3) None) d) = Ok r.
  Proof.
    destruct ds1 as [d E]. exists d. split; [exact E|]. intros a Ha.
    assert (NE : ts1 <> []) by discriminate. assert (NP : FIXED <> BadPrior) by discriminate. assert (L : (Z.to_nat 7 < 8)%nat) by (cbn; lia).
    exact (C28_fixed_returns true None ts1 d E (fun _ => Fin 0%R) 8 a FIXED 7%Z 3 None NE Ha NP L).
  Qed.
End RunExamples.
