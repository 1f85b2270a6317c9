(** C80: how synthetic data depends on the random numbers: the law of a single claim, and exactly which data sets are possible. *)
From Coq Require Import Reals Lra.
From Verif Require Import Base Num Sparse Spec Dataset DatasetRep PropsData PyStr Matrix PropsMatrix Iterators Algorithms Results Supervised PropsSynth.
Local Open Scope R_scope.

(** ** One claim *)
Lemma draw_interval xs acc u v : (forall x, In x xs -> 0 <= x) -> acc <= u -> u < acc + rsum (fun x => x) xs ->
  (length (filter (fun c => rleb c u) (csum acc xs)) = v <-> acc + rsum (fun x => x) (firstn v xs) <= u < acc + rsum (fun x => x) (firstn (Datatypes.S v) xs)).
Proof.
  revert acc v. induction xs as [|x t IH]; intros acc v H Ha Hb; [cbn in Hb; lra|]. assert (Hx : 0 <= x) by (apply H; now left).
  assert (Ht : forall y, In y t -> 0 <= y) by (intros y Hy; apply H; now right). cbn [csum filter]. change (rsum (fun x => x) (x :: t)) with (x + rsum (fun x => x) t) in Hb.
  destruct (rleb_spec (acc + x) u) as [L|L].
  - cbn [length]. destruct v as [|v].
    + split; [discriminate|]. cbn. lra.
    + change (firstn (Datatypes.S v) (x :: t)) with (x :: firstn v t). change (firstn (Datatypes.S (Datatypes.S v)) (x :: t)) with (x :: firstn (Datatypes.S v) t).
      change (rsum (fun x => x) (x :: firstn v t)) with (x + rsum (fun x => x) (firstn v t)). change (rsum (fun x => x) (x :: firstn (Datatypes.S v) t)) with (x + rsum (fun x => x) (firstn (Datatypes.S v) t)).
      rewrite <- !Rplus_assoc. rewrite <- (IH (acc + x) v Ht L) by lra. split; [intros [= Q]; exact Q|intros ->; reflexivity].
  - assert (E : filter (fun c => rleb c u) (csum (acc + x) t) = []).
    { assert (G : forall c, In c (csum (acc + x) t) -> rleb c u = false) by (intros c Hc; apply csum_ge in Hc; auto; destruct (rleb_spec c u); [lra|reflexivity]).
      induction (csum (acc + x) t) as [|c l IHl]; [reflexivity|]. cbn. rewrite (G c) by now left. apply IHl. intros; apply G; now right. }
    rewrite E. cbn [length]. destruct v as [|v].
    + split; [|reflexivity]. intros _. cbn. lra.
    + split; [discriminate|]. change (firstn (Datatypes.S v) (x :: t)) with (x :: firstn v t). change (rsum (fun x => x) (x :: firstn v t)) with (x + rsum (fun x => x) (firstn v t)).
      assert (P : 0 <= rsum (fun x => x) (firstn v t)) by (apply rsum_nonneg; intros y Hy; apply Ht; rewrite <- (firstn_skipn v t); apply in_or_app; now left). lra.
Qed.
Lemma firstn_seq v d : (v <= d)%nat -> firstn v (seq 0 d) = seq 0 v.
Proof. intros H. replace d with (v + (d - v))%nat by lia. rewrite seq_app, firstn_app, seq_length, Nat.sub_diag, firstn_O, app_nil_r. apply firstn_all2. rewrite seq_length. lia. Qed.

(** The random numbers for which a source of trust [a] claims [v] when [x] is true form an interval whose length is [a] if v = x, and the same fraction
    of 1 - a for each of the d - 1 other values; nothing but that random number matters. *)
Theorem C80_claim_law a x d v : 0 <= a <= 1 -> (2 <= d)%nat -> (x < d)%nat -> (v < d)%nat ->
  exists lo, 0 <= lo /\ lo + (if Nat.eqb v x then a else (1 - a) / (INR d - 1)) <= 1 /\
    forall (g : rng XR) k u, rn_unif g k = Fin u -> 0 <= u < 1 ->
      (generate_claim g k (Fin a) x d = Ok v <-> lo <= u < lo + (if Nat.eqb v x then a else (1 - a) / (INR d - 1))).
Proof.
  intros Ha Hd Hx Hv. change (if Nat.eqb v x then a else (1 - a) / (INR d - 1)) with (claim_prob a x d v).
  assert (Pos : forall i, 0 <= claim_prob a x d i) by (intros i; now apply claim_prob_range).
  exists (rsum (claim_prob a x d) (seq 0 v)). assert (Nx : rsum (claim_prob a x d) (seq 0 (Datatypes.S v)) = rsum (claim_prob a x d) (seq 0 v) + claim_prob a x d v) by (rewrite seq_S, rsum_app; cbn; lra).
  split; [apply rsum_nonneg; auto|]. split.
  - rewrite <- Nx, <- (claim_prob_sum a x d Hd Hx). replace d with (Datatypes.S v + (d - Datatypes.S v))%nat at 3 by lia. rewrite seq_app, rsum_app.
    assert (0 <= rsum (claim_prob a x d) (seq (0 + Datatypes.S v) (d - Datatypes.S v))) by (apply rsum_nonneg; auto). lra.
  - intros g k u Eu Hu. unfold generate_claim. rewrite prob_dist_fin by assumption.
    assert (Hp : forall y, In y (map (claim_prob a x d) (seq 0 d)) -> 0 <= y) by (intros y Hy; apply in_map_iff in Hy; destruct Hy as (i & <- & _); auto).
    assert (Hs : rsum (fun x => x) (map (claim_prob a x d) (seq 0 d)) = 1) by (rewrite rsum_map; now apply claim_prob_sum).
    pose proof (np_choice_index g k u (map (claim_prob a x d) (seq 0 d)) Eu Hu Hp Hs) as E.
    pose proof (draw_interval (map (claim_prob a x d) (seq 0 d)) 0 u v Hp ltac:(lra) ltac:(lra)) as Dr.
    assert (Id : forall l, rsum (fun x => x) (map (claim_prob a x d) l) = rsum (claim_prob a x d) l) by (intros l; rewrite rsum_map; reflexivity).
    rewrite !firstn_map, !firstn_seq, !Id, Nx, !Rplus_0_l in Dr by lia. rewrite <- Dr. split; intros Q; [pose proof (eq_trans (eq_sym E) Q) as Q'; now injection Q'|rewrite <- Q; exact E].
Qed.

(** ** Which data sets can come out *)
(** the next random numbers, from number [k] on, are [us] *)
Definition fed (us : list R) (k : nat) (g : rng XR) : Prop := forall i u, nth_error us i = Some u -> rn_unif g (k + i) = Fin u.
Lemma fed_cons u us k g : fed (u :: us) k g -> rn_unif g k = Fin u /\ fed us (k + 1) g.
Proof.
  intros H. split; [rewrite <- (Nat.add_0_r k); exact (H 0%nat u eq_refl)|]. intros i v Hi. replace (k + 1 + i)%nat with (k + Datatypes.S i)%nat by lia. exact (H (Datatypes.S i) v Hi).
Qed.
Lemma fed_app us vs k g : fed (us ++ vs) k g -> fed us k g /\ fed vs (k + length us) g.
Proof.
  intros H. split; intros i u Hi.
  - apply H. rewrite nth_error_app1; [exact Hi|]. apply nth_error_Some. congruence.
  - replace (k + length us + i)%nat with (k + (length us + i))%nat by lia. apply H. rewrite nth_error_app2 by lia. replace (length us + i - length us)%nat with i by lia. exact Hi.
Qed.
Definition in_unit (us : list R) : Prop := forall u, In u us -> 0 <= u < 1.
Lemma choose_claim a x d v : 0 <= a <= 1 -> (2 <= d)%nat -> (x < d)%nat -> (v < d)%nat -> 0 < claim_prob a x d v ->
  exists u, 0 <= u < 1 /\ forall (g : rng XR) k, rn_unif g k = Fin u -> generate_claim g k (Fin a) x d = Ok v.
Proof.
  intros Ha Hd Hx Hv P. destruct (C80_claim_law a x d v Ha Hd Hx Hv) as (lo & H0 & H1 & H). change (if Nat.eqb v x then a else (1 - a) / (INR d - 1)) with (claim_prob a x d v) in *.
  exists lo. split; [lra|]. intros g k Eu. apply (H g k lo Eu); lra.
Qed.
Lemma matrix_ext (m m' : matrix nat) ns n : shape m ns n -> shape m' ns n -> (forall i j, cell m i j = cell m' i j) -> m = m'.
Proof.
  intros [L R] [L' R'] H. apply nth_error_ext_all. intros i. destruct (nth_error m i) as [row|] eqn:E, (nth_error m' i) as [row'|] eqn:E'.
  - f_equal. apply nth_error_ext_all. intros j. specialize (H i j). unfold cell in H. rewrite E, E' in H. pose proof (R row (nth_error_In _ _ E)) as Lr. pose proof (R' row' (nth_error_In _ _ E')) as Lr'.
    destruct (nth_error row j) eqn:Q, (nth_error row' j) eqn:Q'; [congruence| | |reflexivity].
    + apply nth_error_None in Q'. assert (j < length row)%nat by (apply nth_error_Some; congruence). lia.
    + apply nth_error_None in Q. assert (j < length row')%nat by (apply nth_error_Some; congruence). lia.
  - apply nth_error_None in E'. assert (i < length m)%nat by (apply nth_error_Some; congruence). lia.
  - apply nth_error_None in E. assert (i < length m')%nat by (apply nth_error_Some; congruence). lia.
  - reflexivity.
Qed.

Section Reach.
  Variables (trust : list R) (tv : list nat) (q : R) (d : nat) (T : matrix nat).
  Notation ns := (length trust). Notation n := (length tv).
  Notation tr := (map Fin trust : list XR).
  Hypothesis Htrust : forall a, In a trust -> 0 <= a <= 1.
  Hypothesis Hq : 0 < q <= 1.
  Hypothesis Hd : (2 <= d)%nat.
  Hypothesis Htv : forall x, In x tv -> (x < d)%nat.
  Hypothesis HT : shape T ns n.
  Hypothesis Hpos : forall i j v a x, cell T i j = Some v -> nth_error trust i = Some a -> nth_error tv j = Some x -> (v < d)%nat /\ 0 < claim_prob a x d v.
  Hypothesis Hsilent : forall i j, (i < ns)%nat -> (j < n)%nat -> cell T i j = None -> q < 1.

  Definition claimed (j i : nat) : bool := match cell T i j with Some _ => true | None => false end.
  (** [m'] is [m] with the cells of [T] at the given places added *)
  Definition filled (p : nat -> nat -> bool) (m m' : matrix nat) : Prop := shape m' ns n /\ forall i j, cell m' i j = match (if p i j then cell T i j else None) with Some v => Some v | None => cell m i j end.

  Lemma put_reach m k s var x v u g : shape m ns n -> nth_error tv var = Some x -> (s < ns)%nat -> rn_unif g k = Fin u ->
    (forall a, nth_error trust s = Some a -> generate_claim g k (Fin a) x d = Ok v) -> put_claim g tr d (m, k) s var x = Ok (mset m s var v, (k + 1)%nat).
  Proof.
    intros Sh Hx Hs Eu G. unfold put_claim. destruct (nth_error trust s) as [a|] eqn:Ea; [|apply nth_error_None in Ea; lia]. cbn [fst snd].
    assert (Et : nth_error tr s = Some (Fin a)) by (rewrite nth_error_map, Ea; reflexivity). rewrite Et, (G a eq_refl). reflexivity.
  Qed.
  Lemma source_reach var x : nth_error tv var = Some x -> forall sources cm m k, shape m ns n -> (forall s, In s sources -> (s < ns)%nat) ->
    exists us m', in_unit us /\ filled (fun i j => Nat.eqb j var && mem i sources) m m' /\
      forall g, fed us k g -> source_loop g tr (Fin q : XR) d var x sources cm (m, k) = Ok (cm || existsb (claimed var) sources, (m', k + length us)%nat).
  Proof.
    intros Hx. assert (Hvar : (var < n)%nat) by (apply nth_error_Some; congruence).
    induction sources as [|s sources IH]; intros cm m k Sh Hs.
    - exists [], m. split; [intros u []|]. split.
      + split; [exact Sh|]. intros i j. now rewrite andb_false_r.
      + intros g _. cbn. now rewrite orb_false_r, Nat.add_0_r.
    - assert (Hs0 : (s < ns)%nat) by (apply Hs; now left). assert (Hs' : forall s, In s sources -> (s < ns)%nat) by (intros; apply Hs; now right).
      destruct (nth_error trust s) as [a|] eqn:Ea; [|apply nth_error_None in Ea; lia]. assert (Ha : 0 <= a <= 1) by (apply Htrust; now apply nth_error_In in Ea).
      destruct (cell T s var) as [v|] eqn:Ev.
      + destruct (Hpos s var v a x Ev Ea Hx) as [Hv P]. destruct (choose_claim a x d v Ha Hd (Htv x (nth_error_In _ _ Hx)) Hv P) as (u & Hu & Hg).
        destruct (IH true (mset m s var v) (k + 1 + 1)%nat (shape_mset _ _ _ _ _ _ Sh Hs0) Hs') as (us & m' & U & [Sh' Fl] & R). exists (0 :: u :: us), m'. split; [|split].
        * intros w [<-|[<-|Hw]]; [lra|exact Hu|now apply U].
        * split; [exact Sh'|]. intros i j. rewrite Fl, (cell_mset _ _ _ _ _ _ _ _ Sh Hs0 Hvar). unfold mem. cbn [existsb].
          destruct (Nat.eqb_spec j var) as [->|]; cbn [andb]; [|now rewrite andb_false_r]. rewrite andb_true_r. change (beq i s) with (Nat.eqb i s).
          destruct (Nat.eqb_spec i s) as [->|]; cbn [orb]; [|reflexivity]. rewrite Ev. destruct (existsb (beq s) sources); reflexivity.
        * intros g Hf. apply fed_cons in Hf. destruct Hf as [E0 Hf]. apply fed_cons in Hf. destruct Hf as [E1 Hf]. cbn [source_loop].
          assert (Q : n_leb (F:=XR) (rn_unif g k) (Fin q) = true) by (rewrite E0; change (rleb 0 q = true); destruct (rleb_spec 0 q); [reflexivity|lra]). rewrite Q.
          rewrite (put_reach m (k + 1)%nat s var x v u g Sh Hx Hs0 E1) by (intros a' Ea'; rewrite Ea in Ea'; injection Ea' as <-; now apply Hg). cbn [bind]. rewrite (R g Hf). cbn [existsb orb]. unfold claimed at 1. rewrite Ev. cbn [orb]. rewrite orb_true_r. cbn [length]. do 3 f_equal. lia.
      + destruct (IH cm m (k + 1)%nat Sh Hs') as (us & m' & U & [Sh' Fl] & R). pose proof (Hsilent s var Hs0 Hvar Ev) as Q1. exists ((1 + q) / 2 :: us), m'. split; [|split].
        * intros w [<-|Hw]; [lra|now apply U].
        * split; [exact Sh'|]. intros i j. rewrite Fl. unfold mem. cbn [existsb]. destruct (Nat.eqb_spec j var) as [->|]; cbn [andb]; [|reflexivity]. change (beq i s) with (Nat.eqb i s).
          destruct (Nat.eqb_spec i s) as [->|]; cbn [orb]; [|reflexivity]. rewrite Ev. destruct (existsb (beq s) sources); reflexivity.
        * intros g Hf. apply fed_cons in Hf. destruct Hf as [E0 Hf]. cbn [source_loop].
          assert (Q : n_leb (F:=XR) (rn_unif g k) (Fin q) = false) by (rewrite E0; change (rleb ((1 + q) / 2) q = false); destruct (rleb_spec ((1 + q) / 2) q); [lra|reflexivity]). rewrite Q.
          rewrite (R g Hf). cbn [existsb]. unfold claimed at 2. rewrite Ev. cbn [orb length]. do 3 f_equal. lia.
  Qed.
  Hypothesis Hcol : forall j, (j < n)%nat -> exists i v, cell T i j = Some v.
  Lemma var_reach : forall vars m k, shape m ns n -> (forall j x, In (j, x) vars -> nth_error tv j = Some x) ->
    exists us m', in_unit us /\ filled (fun i j => mem j (map fst vars)) m m' /\ forall g, fed us k g -> var_loop g tr (Fin q : XR) d vars (m, k) = Ok (m', (k + length us)%nat).
  Proof.
    induction vars as [|[var x] vars IH]; intros m k Sh Hv.
    - exists [], m. split; [intros u []|]. split; [split; [exact Sh|reflexivity]|]. intros g _. cbn. now rewrite Nat.add_0_r.
    - assert (Hx : nth_error tv var = Some x) by (apply Hv; now left). assert (Hvar : (var < n)%nat) by (apply nth_error_Some; congruence).
      destruct (source_reach var x Hx (seq 0 ns) false m k Sh) as (us1 & m1 & U1 & [Sh1 F1] & R1); [intros s Hs; apply in_seq in Hs; lia|].
      destruct (IH m1 (k + length us1)%nat Sh1) as (us2 & m2 & U2 & [Sh2 F2] & R2); [intros j y H; apply Hv; now right|]. exists (us1 ++ us2), m2. split; [|split].
      + intros u Hu. apply in_app_iff in Hu. destruct Hu; auto.
      + split; [exact Sh2|]. intros i j. rewrite F2, F1. cbn [map fst]. unfold mem at 3. cbn [existsb]. change (beq j var) with (Nat.eqb j var). fold (mem j (map fst vars)).
        destruct (mem j (map fst vars)); [destruct (cell T i j); rewrite ?orb_true_r; [reflexivity|]; now destruct (_ && _)|]. rewrite orb_false_r.
        destruct (Nat.eqb_spec j var) as [->|]; cbn [andb]; [|reflexivity]. destruct (mem i (seq 0 ns)) eqn:Mi; [reflexivity|].
        destruct (cell T i var) as [v|] eqn:Ev; [|reflexivity]. exfalso. assert (Q : cell T i var <> None) by congruence. apply (cell_range _ _ _ _ _ HT) in Q. apply mem_false in Mi. apply Mi, in_seq. lia.
      + intros g Hf. apply fed_app in Hf. destruct Hf as [H1 H2]. cbn [var_loop]. rewrite map_length. rewrite (R1 g H1). cbn [bind orb].
        assert (Ex : existsb (claimed var) (seq 0 ns) = true).
        { apply existsb_exists. destruct (Hcol var Hvar) as (i & v & Ev). exists i. assert (Q : cell T i var <> None) by congruence. apply (cell_range _ _ _ _ _ HT) in Q. split; [apply in_seq; lia|]. unfold claimed. now rewrite Ev. }
        rewrite Ex. rewrite (R2 g H2). rewrite app_length. do 2 f_equal. lia.
  Qed.
  Hypothesis Hrow : forall i, (i < ns)%nat -> exists j v, cell T i j = Some v.
  Lemma fill_none g nv k : forall sources, (forall s, In s sources -> (s < ns)%nat) -> fill_loop g tr tv d nv sources (T, k) = Ok (T, k).
  Proof.
    induction sources as [|s sources IH]; intros Hs; [reflexivity|]. cbn [fill_loop].
    assert (Q : forallb (fun c : option nat => match c with None => true | Some _ => false end) (nth s T []) = false).
    { destruct (Hrow s (Hs s (or_introl eq_refl))) as (j & v & Ev). unfold cell in Ev. destruct (nth_error T s) as [row|] eqn:Er; [|discriminate]. rewrite (nth_error_nth T s [] Er).
      apply Bool.not_true_is_false. intros Q. rewrite forallb_forall in Q. destruct (nth_error row j) as [c|] eqn:Ec; [|discriminate]. subst c. apply nth_error_In in Ec. specialize (Q _ Ec). discriminate. }
    rewrite Q. apply IH. intros; apply Hs; now right.
  Qed.
  Lemma generate_reach : trust <> [] -> exists g, uniform g /\ generate g (Trust1 tr) (Z.of_nat n) (Fin q : XR) (Z.of_nat d) = Ok (T, tv).
  Proof.
    intros NE. destruct (var_reach (enum_from 0 tv) (repeat (repeat None n) ns) n (shape_blank ns n)) as (us & m' & U & [Sh Fl] & R).
    { intros j x H. apply enum_from_In in H. now rewrite Nat.sub_0_r in H. }
    assert (Em : m' = T).
    { apply (matrix_ext _ _ ns n Sh HT). intros i j. rewrite Fl, cell_blank. destruct (mem j (map fst (enum_from 0 tv))) eqn:Mj; [now destruct (cell T i j)|].
      destruct (cell T i j) as [v|] eqn:Ev; [|reflexivity]. exfalso. assert (Q : cell T i j <> None) by congruence. apply (cell_range _ _ _ _ _ HT) in Q. apply mem_false in Mj. apply Mj, in_map_iff.
      destruct (nth_error tv j) as [x|] eqn:Ex; [|apply nth_error_None in Ex; lia]. exists (j, x). split; [reflexivity|]. apply enum_from_In. rewrite Nat.sub_0_r. split; [lia|exact Ex]. }
    subst m'. exists (RNG (F:=XR) (fun k => nth k tv 0%nat) (fun k => Fin (nth (k - n) us 0))). split.
    - intros k. eexists. split; [reflexivity|]. destruct (nth_in_or_default (k - n) us 0) as [H|H]; [now apply U|]. rewrite H. lra.
    - cbn [generate]. rewrite map_length. destruct (Nat.eqb_spec ns 0) as [L|_]; [destruct trust; [congruence|discriminate]|].
      assert (C1 : forall t : XR, In t tr -> exists a, t = Fin a /\ 0 <= a <= 1) by (intros t Ht; apply in_map_iff in Ht; destruct Ht as (a & <- & Ha); exists a; auto).
      rewrite (proj2 (trust_check tr) C1), (proj2 (prob_check (Fin q)) (or_intror (ex_intro _ q (conj eq_refl Hq)))).
      destruct (Z.leb_spec (Z.of_nat d) 1); [lia|]. destruct (Z.ltb_spec (Z.of_nat n) 0); [lia|]. cbv zeta. rewrite !Nat2Z.id.
      assert (Et : draw_true_values (F:=XR) (RNG (F:=XR) (fun k => nth k tv 0%nat) (fun k => Fin (nth (k - n) us 0))) n d = tv).
      { unfold draw_true_values. cbn [rn_int]. rewrite (map_ext_in _ (fun k => nth k tv 0%nat)).
        - apply nth_error_ext_all. intros i. rewrite nth_error_map. destruct (Nat.lt_ge_cases i n) as [Hi|Hi].
          + rewrite (nth_error_nth' (seq 0 n) 0%nat) by (now rewrite seq_length). rewrite seq_nth by exact Hi. cbn. symmetry. now apply nth_error_nth'.
          + rewrite (proj2 (nth_error_None (seq 0 n) i)) by (now rewrite seq_length). symmetry. now apply nth_error_None.
        - intros k Hk. apply in_seq in Hk. apply Nat.mod_small, Htv, nth_In. lia. }
      rewrite Et, R.
      + cbn [bind]. rewrite fill_none by (intros s Hs; apply in_seq in Hs; lia). reflexivity.
      + intros i u Hi. cbn [rn_unif]. replace (n + i - n)%nat with i by lia. f_equal. now apply nth_error_nth.
  Qed.
End Reach.

(** ** ... and nothing else can *)
Section Full.
  Variables (g : rng XR) (trust : list XR) (tv : list nat) (d : nat).
  Hypothesis U : uniform g.
  Lemma below_one k : n_leb (F:=XR) (rn_unif g k) (Fin 1) = true.
  Proof. destruct (U k) as (u & -> & Hu). change (rleb u 1 = true). destruct (rleb_spec u 1); [reflexivity|lra]. Qed.
  Lemma source_full var x : nth_error tv var = Some x -> forall sources cm st cm' st', drawn g trust tv d (fst st) -> source_loop g trust (Fin 1 : XR) d var x sources cm st = Ok (cm', st') ->
    drawn g trust tv d (fst st') /\ grows (fst st) (fst st') /\ (cm = true \/ sources <> [] -> cm' = true) /\ forall s, In s sources -> cell (fst st') s var <> None.
  Proof.
    intros Hx. induction sources as [|s sources IH]; intros cm st cm' st' D E; cbn in E.
    - injection E as <- <-. split; [exact D|]. split; [apply grows_refl|]. split; [intros [Q|Q]; [exact Q|congruence]|intros ? []].
    - destruct st as [m k]. assert (Q := below_one k). rewrite Q in E. apply bind_Ok in E. destruct E as (st1 & E1 & E2).
      destruct (put_claim_ok g trust tv d _ _ _ _ _ (D : drawn g trust tv d (fst (m, (k + 1)%nat))) Hx E1) as (D1 & G1 & C1). destruct (IH true st1 cm' st' D1 E2) as (D2 & G2 & C2 & A2).
      split; [exact D2|]. split; [exact (grows_trans _ _ _ G1 G2)|]. split; [intros _; apply C2; now left|]. intros s' [<-|H]; [now apply G2|now apply A2].
  Qed.
  Lemma var_full : trust <> [] -> forall vars st st', (forall j x, In (j, x) vars -> nth_error tv j = Some x) -> drawn g trust tv d (fst st) -> var_loop g trust (Fin 1 : XR) d vars st = Ok st' ->
    drawn g trust tv d (fst st') /\ grows (fst st) (fst st') /\ forall j x s, In (j, x) vars -> (s < length trust)%nat -> cell (fst st') s j <> None.
  Proof.
    intros NE. induction vars as [|[j x] vars IH]; intros st st' Hv D E; cbn in E.
    - injection E as <-. split; [exact D|]. split; [apply grows_refl|intros ? ? ? []].
    - assert (Hx : nth_error tv j = Some x) by (apply Hv; now left). apply bind_Ok in E. destruct E as ([cm st1] & E1 & E2).
      destruct (source_full j x Hx _ _ _ _ _ D E1) as (D1 & G1 & C1 & A1). rewrite C1 in E2 by (right; destruct trust; [congruence|discriminate]).
      destruct (IH st1 st' (fun j' x' H => Hv j' x' (or_intror H)) D1 E2) as (D2 & G2 & A2). split; [exact D2|]. split; [exact (grows_trans _ _ _ G1 G2)|].
      intros j' x' s [[= <- <-]|H] Hs; [|eauto]. apply G2, A1, in_seq. exact (conj (Nat.le_0_l s) Hs).
  Qed.
End Full.

Lemma generate_drawn (g : rng XR) tr nv cp dom m tv : uniform g -> generate g (Trust1 tr) nv cp dom = Ok (m, tv) ->
  (forall i j v a x, cell m i j = Some v -> nth_error tr i = Some (Fin a) -> nth_error tv j = Some x -> 0 < claim_prob a x (Z.to_nat dom) v) /\
  (cp = Fin 1 -> forall i j, (i < length tr)%nat -> (j < length tv)%nat -> cell m i j <> None).
Proof.
  intros U E. assert (Valid : exists v0, Trust1 tr = Trust1 v0 /\ valid_trust v0 /\ valid_prob cp /\ (2 <= dom)%Z /\ (1 <= nv)%Z) by (apply (C14_accepts_iff g (Trust1 tr) nv cp dom U); eauto).
  destruct Valid as (v0 & [= <-] & [NE Ht] & Hc & Hd & Hn). cbn [generate] in E. destruct (Nat.eqb_spec (length tr) 0) as [|Ltr]; [discriminate|]. destruct (_ || _ || _); [discriminate|]. destruct (_ || _) in E; [discriminate|].
  destruct (Z.leb_spec dom 1) as [|Hdom]; [discriminate|]. destruct (Z.ltb_spec nv 0) as [|Hnv]; [discriminate|]. cbv zeta in E.
  set (d := Z.to_nat dom) in *. set (n := Z.to_nat nv) in *. set (t := draw_true_values g n d) in *. assert (Lt : length t = n) by apply draw_length.
  apply bind_Ok in E. destruct E as (st1 & E1 & E). apply bind_Ok in E. destruct E as (st2 & E2 & E). injection E as <- <-.
  assert (D0 : drawn g tr t d (fst (repeat (repeat None n) (length tr), n))).
  { cbn [fst]. rewrite <- Lt. split; [apply shape_blank|]. intros s j' v' H. rewrite cell_blank in H. discriminate. }
  assert (Hen : forall j x, In (j, x) (enum_from 0 t) -> nth_error t j = Some x) by (intros j' x' H; apply enum_from_In in H; now rewrite Nat.sub_0_r in H).
  destruct (var_loop_ok g tr t cp d _ _ _ D0 Hen E1) as (D1 & _). destruct (fill_loop_ok g tr t d _ _ _ _ D1 E2) as ((_ & Dr) & G2 & _). split.
  - intros i j v a x Hv Ha Hx. destruct (Dr i j v Hv) as (q & x' & k & Hq & Hx' & Hg). rewrite Hx in Hx'. injection Hx' as <-. rewrite Ha in Hq. injection Hq as <-.
    assert (Hxd : (x < d)%nat) by (apply nth_error_In, draw_range in Hx; unfold d in *; lia). assert (Ha' : 0 <= a <= 1) by (destruct (Ht (Fin a) (nth_error_In _ _ Ha)) as (a' & [= <-] & Q); exact Q).
    destruct (generate_claim_fin g k a x d U Ha' ltac:(unfold d; lia) Hxd) as (w & Ew & _ & Pw). rewrite Hg in Ew. injection Ew as <-. exact Pw.
  - intros -> i j Hi Hj. destruct (var_full g tr t d U NE _ _ _ Hen D0 E1) as (_ & _ & A). apply G2. destruct (nth_error t j) as [x|] eqn:Ex; [|apply nth_error_None in Ex; lia].
    apply (A j x i); [|exact Hi]. apply enum_from_In. rewrite Nat.sub_0_r. split; [lia|exact Ex].
Qed.

(** A matrix and true values can come out of SyntheticData, for some random numbers, exactly if they have the right sizes and ranges, every row and column has
    a claim, sources of trust 0 make no true and those of trust 1 no false claims, and, if the claim probability is 1, no claim is missing. *)
Theorem C80_possible_iff (trust : list R) nv q dom T tv : trust <> [] -> (forall a, In a trust -> 0 <= a <= 1) -> 0 < q <= 1 -> (2 <= dom)%Z -> (1 <= nv)%Z ->
  ((exists g, uniform g /\ generate g (Trust1 (map Fin trust : list XR)) nv (Fin q : XR) dom = Ok (T, tv)) <->
   Z.of_nat (length tv) = nv /\ length T = length trust /\ (forall row, In row T -> length row = length tv) /\ (forall x, In x tv -> (Z.of_nat x < dom)%Z) /\
   (forall i, (i < length trust)%nat -> exists j v, cell T i j = Some v) /\ (forall j, (j < length tv)%nat -> exists i v, cell T i j = Some v) /\
   (forall i j v a x, cell T i j = Some v -> nth_error trust i = Some a -> nth_error tv j = Some x -> (Z.of_nat v < dom)%Z /\ (v = x -> 0 < a) /\ (v <> x -> a < 1)) /\
   (q = 1 -> forall i j, (i < length trust)%nat -> (j < length tv)%nat -> cell T i j <> None)).
Proof.
  intros NE Ht Hq Hd Hn. set (d := Z.to_nat dom). assert (Pd : 0 < INR d - 1) by (assert (H : (2 <= d)%nat) by (unfold d; lia); apply le_INR in H; cbn in H; lra).
  assert (Pos : forall a x v, 0 <= a <= 1 -> (0 < claim_prob a x d v <-> (v = x -> 0 < a) /\ (v <> x -> a < 1))).
  { intros a x v Ha. unfold claim_prob. destruct (Nat.eqb_spec v x) as [Q|Q]; [intuition|]. split.
    - intros P. split; [congruence|]. intros _. apply Rnot_le_lt. intros L. assert (a = 1) by lra. subst a. unfold Rdiv in P. rewrite Rminus_diag_eq in P by reflexivity. lra.
    - intros [_ P]. specialize (P Q). apply Rmult_lt_0_compat; [lra|now apply Rinv_0_lt_compat]. }
  split.
  - intros (g & U & E). destruct (C15_complete _ _ _ _ _ _ _ E) as (_ & L & [Sh1 Sh2] & Rw & Cl & Dm & Tv). destruct (generate_drawn _ _ _ _ _ _ _ U E) as [P F]. rewrite map_length in *.
    split; [lia|]. split; [exact Sh1|]. split; [exact Sh2|]. split; [intros x Hx; apply In_nth_error in Hx; destruct Hx as [j Hj]; exact (Tv j x Hj)|]. split; [exact Rw|]. split; [exact Cl|]. split.
    + intros i j v a x Hv Ha Hx. split; [exact (Dm i j v Hv)|]. apply Pos; [apply Ht; now apply nth_error_In in Ha|]. apply (P i j v a x Hv); [|exact Hx]. rewrite nth_error_map, Ha. reflexivity.
    + intros ->. now apply F.
  - intros (L & Sh1 & Sh2 & Tv & Rw & Cl & Ps & Fl). destruct (generate_reach trust tv q d T) with (5 := conj Sh1 Sh2 : shape T (length trust) (length tv)) as (g & U & E); try assumption.
    + unfold d. lia.
    + intros x Hx. specialize (Tv x Hx). unfold d. lia.
    + intros i j v a x Hv Ha Hx. destruct (Ps i j v a x Hv Ha Hx) as [Hv' Q]. split; [unfold d; lia|]. apply Pos; [apply Ht; now apply nth_error_In in Ha|exact Q].
    + intros i j Hi Hj Q. destruct (Req_dec q 1) as [->|]; [|lra]. exfalso. exact (Fl eq_refl i j Hi Hj Q).
    + exists g. split; [exact U|]. rewrite <- L. unfold d in E. rewrite Z2Nat.id in E by lia. exact E.
Qed.

Module LawExamples.
  (** two sources, two variables: one source wrong about one variable and silent about the other *)
  Example possible_met : exists g, uniform g /\ generate g (Trust1 ([Fin (1 / 2); Fin 1] : list XR)) 2 (Fin (1 / 2) : XR) 4 = Ok ([[Some 3%nat; None]; [Some 0%nat; Some 2%nat]], [0%nat; 2%nat]).
  Proof.
    apply (C80_possible_iff [1 / 2; 1] 2 (1 / 2) 4 [[Some 3%nat; None]; [Some 0%nat; Some 2%nat]] [0%nat; 2%nat]); [discriminate| |lra|lia|lia|].
    - intros a [<-|[<-|[]]]; lra.
    - split; [reflexivity|]. split; [reflexivity|]. split; [intros row [<-|[<-|[]]]; reflexivity|]. split; [intros x [<-|[<-|[]]]; reflexivity|]. split; [|split; [|split]].
      + intros [|[|i]] Hi; cbn in Hi; [exists 0%nat, 3%nat; reflexivity|exists 1%nat, 2%nat; reflexivity|lia].
      + intros [|[|j]] Hj; cbn in Hj; [exists 0%nat, 3%nat; reflexivity|exists 1%nat, 2%nat; reflexivity|lia].
      + intros i j v a x Hv Ha Hx. destruct i as [|[|[|i]]]; destruct j as [|[|[|j]]]; cbn in Hv, Ha, Hx; try discriminate; injection Hv as <-; injection Ha as <-; injection Hx as <-; (split; [reflexivity|split; intros; try lra; congruence]).
      + lra.
  Qed.
  (** a quarter of the random numbers make a source of trust 1/4 tell the truth *)
  Example law_met : exists lo, 0 <= lo /\ lo + 1 / 4 <= 1 /\ forall (g : rng XR) k u, rn_unif g k = Fin u -> 0 <= u < 1 -> (generate_claim g k (Fin (1 / 4)) 1 4 = Ok 1%nat <-> lo <= u < lo + 1 / 4).
  Proof. exact (C80_claim_law (1 / 4) 1 4 1 ltac:(lra) ltac:(lia) ltac:(lia) ltac:(lia)). Qed.
End LawExamples.
