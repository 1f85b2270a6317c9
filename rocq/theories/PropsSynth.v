(** Property theorems about synthetic data: C14 (parameters), C15 (completeness), C16 (CSV round trip). *)
From Coq Require Import Reals Lra.
From Verif Require Import Base Num Sparse Spec Dataset DatasetRep PropsData PyStr Matrix PropsMatrix Iterators Algorithms Results Supervised.

(** ** lists and matrices *)
Lemma set_nth_length {A} (l : list A) i x : length (set_nth l i x) = length l.
Proof.
  unfold set_nth. rewrite app_length, firstn_length. pose proof (skipn_length i l) as L. destruct (skipn i l) as [|y t]; cbn [length] in *; lia.
Qed.
Lemma set_nth_get {A} (l : list A) i x k : nth_error (set_nth l i x) k = if Nat.eqb k i && Nat.ltb i (length l) then Some x else nth_error l k.
Proof.
  revert i k. induction l as [|a l IH]; intros [|i] [|k]; unfold set_nth; cbn [firstn skipn app nth_error]; try reflexivity.
  - now rewrite andb_false_r.
  - rewrite <- (IH i k) || idtac. change (nth_error (set_nth l i x) k = if Nat.eqb (S k) (S i) && Nat.ltb (S i) (length (a :: l)) then Some x else nth_error l k). rewrite IH. reflexivity.
Qed.
Definition shape {C} (m : matrix C) (rows cols : nat) : Prop := length m = rows /\ forall row, In row m -> length row = cols.
Lemma cell_mset m ns n i j v i' j' : shape m ns n -> i < ns -> j < n ->
  cell (mset m i j v) i' j' = if Nat.eqb i' i && Nat.eqb j' j then Some v else cell m i' j'.
Proof.
  intros [L Hr] Hi Hj. unfold cell, mset. rewrite set_nth_get. rewrite L. destruct (Nat.ltb_spec i ns); [|lia]. rewrite andb_true_r.
  destruct (Nat.eqb_spec i' i) as [->|N]; cbn [andb]; [|reflexivity].
  destruct (nth_error m i) as [row|] eqn:E; [|apply nth_error_None in E; lia]. rewrite (nth_error_nth m i [] E).
  assert (Lr : length row = n) by (apply Hr; now apply nth_error_In in E). rewrite set_nth_get, Lr. destruct (Nat.ltb_spec j n); [|lia]. rewrite andb_true_r. now destruct (Nat.eqb j' j).
Qed.
Lemma shape_mset m ns n i j v : shape m ns n -> i < ns -> shape (mset m i j v) ns n.
Proof.
  intros [L Hr] Hi. unfold mset. split; [rewrite set_nth_length; exact L|]. intros row H. apply In_nth_error in H. destruct H as [k Hk]. rewrite set_nth_get in Hk.
  destruct (Nat.eqb k i && Nat.ltb i (length m)); [|apply Hr; now apply nth_error_In in Hk]. injection Hk as <-. rewrite set_nth_length. apply Hr. apply nth_In. lia.
Qed.
Lemma cell_blank i j ns n : cell (repeat (repeat (@None nat) n) ns) i j = None.
Proof.
  unfold cell. destruct (nth_error (repeat (repeat None n) ns) i) as [row|] eqn:E; [|reflexivity]. apply nth_error_In, repeat_spec in E. subst row.
  destruct (nth_error (repeat None n) j) as [c|] eqn:E; [|reflexivity]. now apply nth_error_In, repeat_spec in E.
Qed.
Lemma shape_blank ns n : shape (repeat (repeat (@None nat) n) ns) ns n.
Proof. split; [apply repeat_length|]. intros row H. apply repeat_spec in H. subst. apply repeat_length. Qed.
Lemma cell_range {C} (m : matrix C) ns n i j : shape m ns n -> cell m i j <> None -> i < ns /\ j < n.
Proof.
  intros [L Hr] H. unfold cell in H. destruct (nth_error m i) as [row|] eqn:E; [|congruence]. split; [rewrite <- L; apply nth_error_Some; congruence|].
  rewrite <- (Hr row) by (now apply nth_error_In in E). apply nth_error_Some. destruct (nth_error row j); congruence.
Qed.

Section Generic.
  Context {F : Num}.
  Variables (g : rng F) (trust : list F) (tv : list nat) (cp : F) (d : nat).
  Notation put_claim := (put_claim g trust d).
  Notation source_loop := (source_loop g trust cp d).
  Notation var_loop := (var_loop g trust cp d).
  Notation fill_loop := (fill_loop g trust tv d).

  (** every claim in the matrix was drawn for its source and variable *)
  Definition drawn (m : matrix nat) : Prop := shape m (length trust) (length tv) /\
    forall s j v, cell m s j = Some v -> exists t x k, nth_error trust s = Some t /\ nth_error tv j = Some x /\ generate_claim g k t x d = Ok v.
  Definition grows (m m' : matrix nat) : Prop := forall i j, cell m i j <> None -> cell m' i j <> None.
  Lemma grows_refl m : grows m m. Proof. intros i j H; exact H. Qed.
  Lemma grows_trans a b c : grows a b -> grows b c -> grows a c. Proof. intros H1 H2 i j H. auto. Qed.

  Lemma put_claim_ok st s j x st' : drawn (fst st) -> nth_error tv j = Some x -> put_claim st s j x = Ok st' ->
    drawn (fst st') /\ grows (fst st) (fst st') /\ cell (fst st') s j <> None.
  Proof.
    intros [Sh Hd] Hx E. unfold Supervised.put_claim in E. destruct (nth_error trust s) as [t|] eqn:Et; [|discriminate]. apply bind_Ok in E. destruct E as (v & Ev & E). injection E as <-. cbn [fst].
    assert (Hs : s < length trust) by (apply nth_error_Some; congruence). assert (Hj : j < length tv) by (apply nth_error_Some; congruence).
    split; [|split].
    - split; [now apply shape_mset|]. intros s' j' v'. rewrite (cell_mset _ _ _ _ _ _ _ _ Sh Hs Hj). destruct (Nat.eqb_spec s' s) as [->|]; cbn [andb]; [|apply Hd].
      destruct (Nat.eqb_spec j' j) as [->|]; [|apply Hd]. intros [= <-]. exists t, x, (snd st). auto.
    - intros i' j' H. rewrite (cell_mset _ _ _ _ _ _ _ _ Sh Hs Hj). destruct (_ && _); [discriminate|exact H].
    - rewrite (cell_mset _ _ _ _ _ _ _ _ Sh Hs Hj), !Nat.eqb_refl. discriminate.
  Qed.
  Lemma source_loop_ok var x sources cm st cm' st' : drawn (fst st) -> nth_error tv var = Some x -> (cm = true -> exists s, cell (fst st) s var <> None) ->
    source_loop var x sources cm st = Ok (cm', st') ->
    drawn (fst st') /\ grows (fst st) (fst st') /\ (cm' = true -> exists s, cell (fst st') s var <> None).
  Proof.
    intros D Hx. revert cm st D. induction sources as [|s sources IH]; intros cm st D C E; cbn in E.
    - injection E as <- <-. split; [exact D|split; [apply grows_refl|exact C]].
    - destruct st as [m k]. destruct (n_leb (rn_unif g k) cp).
      + apply bind_Ok in E. destruct E as (st1 & E1 & E2). destruct (put_claim_ok _ _ _ _ _ (D : drawn (fst (m, k + 1))) Hx E1) as (D1 & G1 & C1).
        destruct (IH true st1 D1 (fun _ => ex_intro _ s C1) E2) as (D2 & G2 & C2). split; [exact D2|split; [exact (grows_trans _ _ _ G1 G2)|exact C2]].
      + exact (IH cm (m, k + 1) D C E).
  Qed.
  Lemma var_loop_ok vars st st' : drawn (fst st) -> (forall j x, In (j, x) vars -> nth_error tv j = Some x) -> var_loop vars st = Ok st' ->
    drawn (fst st') /\ grows (fst st) (fst st') /\ forall j x, In (j, x) vars -> exists s, cell (fst st') s j <> None.
  Proof.
    intros D Hv. revert st D. induction vars as [|[j x] vars IH]; intros st D E; cbn in E.
    - injection E as <-. split; [exact D|split; [apply grows_refl|intros ? ? []]].
    - assert (Hx : nth_error tv j = Some x) by (apply Hv; now left). apply bind_Ok in E. destruct E as ([cm st1] & E1 & E2).
      assert (C0 : false = true -> exists s, cell (fst st) s j <> None) by discriminate. destruct (source_loop_ok _ _ _ _ _ _ _ D Hx C0 E1) as (D1 & G1 & C1). specialize (IH (fun j' x' H => Hv j' x' (or_intror H))).
      destruct cm.
      + destruct (IH st1 D1 E2) as (D2 & G2 & C2). split; [exact D2|]. split; [exact (grows_trans _ _ _ G1 G2)|]. intros j' x' [[= <- <-]|H]; [|eauto].
        destruct (C1 eq_refl) as [s Hs]. exists s. now apply G2.
      + destruct st1 as [m k]. apply bind_Ok in E2. destruct E2 as (s & Es & E2). apply bind_Ok in E2. destruct E2 as (st2 & E2 & E3).
        destruct (put_claim_ok _ _ _ _ _ (D1 : drawn (fst (m, k + 1))) Hx E2) as (D2 & G2 & C2). destruct (IH st2 D2 E3) as (D3 & G3 & C3).
        split; [exact D3|]. split; [exact (grows_trans _ _ _ G1 (grows_trans _ _ _ G2 G3))|]. intros j' x' [[= <- <-]|H]; [|eauto]. exists s. now apply G3.
  Qed.
  Lemma unmasked_cell m i : forallb (fun c : option nat => match c with None => true | Some _ => false end) (nth i m []) = false -> exists j, cell m i j <> None.
  Proof.
    intros H. destruct (nth_error m i) as [row|] eqn:E.
    - rewrite (nth_error_nth m i [] E) in H. assert (G : exists j v, nth_error row j = Some (Some v)).
      { clear E. induction row as [|[v|] row IH]; cbn in H; [discriminate|exists 0, v; reflexivity|]. destruct (IH H) as (j & v & Hj). exists (S j), v. exact Hj. }
      destruct G as (j & v & Hj). exists j. unfold cell. rewrite E, Hj. discriminate.
    - apply nth_error_None in E. rewrite nth_overflow in H by exact E. discriminate.
  Qed.
  Lemma fill_loop_ok nv sources st st' : drawn (fst st) -> fill_loop nv sources st = Ok st' ->
    drawn (fst st') /\ grows (fst st) (fst st') /\ forall s, In s sources -> exists j, cell (fst st') s j <> None.
  Proof.
    revert st. induction sources as [|s sources IH]; intros st D E; cbn in E.
    - injection E as <-. split; [exact D|split; [apply grows_refl|intros ? []]].
    - destruct st as [m k]. destruct (forallb _ (nth s m [])) eqn:Ef.
      + apply bind_Ok in E. destruct E as (var & _ & E). destruct (nth_error tv var) as [x|] eqn:Ex; [|discriminate]. apply bind_Ok in E. destruct E as (st1 & E1 & E2).
        destruct (put_claim_ok _ _ _ _ _ (D : drawn (fst (m, k + 1))) Ex E1) as (D1 & G1 & C1). destruct (IH st1 D1 E2) as (D2 & G2 & C2).
        split; [exact D2|]. split; [exact (grows_trans _ _ _ G1 G2)|]. intros s' [<-|H]; [|auto]. exists var. now apply G2.
      + destruct (IH _ D E) as (D2 & G2 & C2). split; [exact D2|]. split; [exact G2|]. intros s' [<-|H]; [|auto]. destruct (unmasked_cell m s Ef) as [j Hj]. exists j. now apply G2.
  Qed.

  (** ** success *)
  Hypothesis Gen : forall t x k, In t trust -> In x tv -> exists v, generate_claim g k t x d = Ok v.
  Lemma put_claim_total st s j x : s < length trust -> In x tv -> exists st', put_claim st s j x = Ok st'.
  Proof.
    intros Hs Hx. unfold Supervised.put_claim. destruct (nth_error trust s) as [t|] eqn:E; [|apply nth_error_None in E; lia].
    destruct (Gen t x (snd st) (nth_error_In _ _ E) Hx) as [v ->]. cbn. eauto.
  Qed.
  Lemma source_loop_total var x sources cm st : In x tv -> (forall s, In s sources -> s < length trust) -> exists q, source_loop var x sources cm st = Ok q.
  Proof.
    intros Hx. revert cm st. induction sources as [|s sources IH]; intros cm [m k] Hs; cbn; [eauto|]. destruct (n_leb (rn_unif g k) cp).
    - destruct (put_claim_total (m, k + 1) s var x) as [st' ->]; [apply Hs; now left|exact Hx|]. cbn. apply IH. intros; apply Hs; now right.
    - apply IH. intros; apply Hs; now right.
  Qed.
  Lemma var_loop_total vars st : trust <> [] -> (forall j x, In (j, x) vars -> In x tv) -> exists st', var_loop vars st = Ok st'.
  Proof.
    intros NE. revert st. induction vars as [|[j x] vars IH]; intros st Hv; cbn; [eauto|]. assert (Hx : In x tv) by (apply (Hv j); now left).
    destruct (source_loop_total j x (seq 0 (length trust)) false st Hx) as [[cm st1] ->]; [intros s Hs; apply in_seq in Hs; lia|]. cbn [bind].
    assert (IH' : forall st, exists st', var_loop vars st = Ok st') by (intros st0; apply IH; intros j' x' H; apply (Hv j'); now right).
    destruct cm; [apply IH'|]. destruct st1 as [m k]. unfold randint. destruct (Z.leb_spec (Z.of_nat (length trust)) 0); [destruct trust; [congruence|cbn in *; lia]|]. cbn [bind].
    destruct (put_claim_total (m, k + 1) (rn_int g k mod Z.to_nat (Z.of_nat (length trust))) j x) as [st2 ->]; [rewrite Nat2Z.id; apply Nat.mod_upper_bound; lia|exact Hx|]. cbn [bind]. apply IH'.
  Qed.
  Lemma fill_loop_total nv sources st : nv = Z.of_nat (length tv) -> tv <> [] -> (forall s, In s sources -> s < length trust) -> exists st', fill_loop nv sources st = Ok st'.
  Proof.
    intros -> NE. revert st. induction sources as [|s sources IH]; intros [m k] Hs; cbn; [eauto|]. assert (IH' : forall st, exists st', fill_loop (Z.of_nat (length tv)) sources st = Ok st') by (intros st0; apply IH; intros; apply Hs; now right).
    destruct (forallb _ (nth s m [])); [|apply IH']. unfold randint. destruct (Z.leb_spec (Z.of_nat (length tv)) 0); [destruct tv; [congruence|cbn in *; lia]|]. cbn [bind]. rewrite Nat2Z.id.
    destruct (nth_error tv (rn_int g k mod length tv)) as [x|] eqn:E; [|apply nth_error_None in E; pose proof (Nat.mod_upper_bound (rn_int g k) (length tv)); lia].
    destruct (put_claim_total (m, k + 1) s (rn_int g k mod length tv) x) as [st2 ->]; [apply Hs; now left|now apply nth_error_In in E|]. cbn [bind]. apply IH'.
  Qed.
End Generic.

Section Synth.
  Context {F : Num}.
  Lemma draw_length (g : rng F) n d : length (draw_true_values g n d) = n.
  Proof. unfold draw_true_values. now rewrite map_length, seq_length. Qed.
  Lemma draw_range (g : rng F) n d x : d <> 0 -> In x (draw_true_values g n d) -> x < d.
  Proof. intros Hd H. apply in_map_iff in H. destruct H as (k & <- & _). now apply Nat.mod_upper_bound. Qed.
  Lemma generate_claim_range (g : rng F) k t x d v : generate_claim g k t x d = Ok v -> v < d.
  Proof.
    unfold generate_claim, np_choice. set (p := prob_dist t x d). assert (L : length p = d) by (unfold p, prob_dist; cbv zeta; now rewrite set_nth_length, repeat_length). clearbody p.
    destruct (negb _); [discriminate|]. destruct (existsb _ p); [discriminate|]. destruct (n_ltb _ _); [discriminate|]. destruct (cumsum _ p); [discriminate|]. cbv zeta.
    match goal with |- context [Nat.ltb ?a ?b] => destruct (Nat.ltb_spec a b) as [Q|Q] end; [|discriminate]. intros E. injection E as <-. rewrite <- L. exact Q.
  Qed.

  (** ** C15, in any arithmetic *)
  Theorem C15_complete (g : rng F) tr nv cp dom m tv : generate g (Trust1 tr) nv cp dom = Ok (m, tv) ->
    (1 <= nv)%Z /\ length tv = Z.to_nat nv /\ shape m (length tr) (length tv) /\
    (forall i, i < length tr -> exists j v, cell m i j = Some v) /\
    (forall j, j < length tv -> exists i v, cell m i j = Some v) /\
    (forall i j v, cell m i j = Some v -> (Z.of_nat v < dom)%Z) /\
    (forall j x, nth_error tv j = Some x -> (Z.of_nat x < dom)%Z).
  Proof.
    intros E. cbn [generate] in E. destruct (Nat.eqb_spec (length tr) 0) as [|Ltr]; [discriminate|]. destruct (_ || _ || _); [discriminate|]. destruct (_ || _); [discriminate|].
    destruct (Z.leb_spec dom 1) as [|Hdom]; [discriminate|]. destruct (Z.ltb_spec nv 0) as [|Hnv]; [discriminate|]. cbv zeta in E.
    set (d := Z.to_nat dom) in *. set (n := Z.to_nat nv) in *. set (t := draw_true_values g n d) in *. assert (Lt : length t = n) by apply draw_length.
    apply bind_Ok in E. destruct E as (st1 & E1 & E). apply bind_Ok in E. destruct E as (st2 & E2 & E). injection E as <- <-.
    assert (D0 : drawn g tr t d (fst (repeat (repeat None n) (length tr), n))).
    { cbn [fst]. rewrite <- Lt. split; [apply shape_blank|]. intros s j v H. rewrite cell_blank in H. discriminate. }
    assert (Hen : forall j x, In (j, x) (enum_from 0 t) -> nth_error t j = Some x) by (intros j x H; apply enum_from_In in H; now rewrite Nat.sub_0_r in H).
    destruct (var_loop_ok g tr t cp d _ _ _ D0 Hen E1) as (D1 & G1 & C1).
    destruct (fill_loop_ok g tr t d _ _ _ _ D1 E2) as (D2 & G2 & C2). destruct D2 as [Sh Dr].
    assert (SomeOf : forall i j, cell (fst st2) i j <> None -> exists v, cell (fst st2) i j = Some v) by (intros i j H; destruct (cell (fst st2) i j); [eauto|congruence]).
    assert (Row : forall i, i < length tr -> exists j v, cell (fst st2) i j = Some v).
    { intros i Hi. destruct (C2 i) as [j Hj]; [apply in_seq; lia|]. exists j. now apply SomeOf. }
    split; [|split; [exact Lt|split; [exact Sh|split; [exact Row|split; [|split]]]]].
    - destruct (Z.eq_dec nv 0) as [->|]; [|lia]. exfalso. destruct (Row 0 ltac:(lia)) as (j & v & Hv). assert (Q : cell (fst st2) 0 j <> None) by congruence.
      apply (cell_range _ _ _ _ _ Sh) in Q. rewrite Lt in Q. unfold n in Q. cbn in Q. lia.
    - intros j Hj. destruct (nth_error t j) as [x|] eqn:Ex; [|apply nth_error_None in Ex; lia]. destruct (C1 j x) as [s Hs]; [apply enum_from_In; rewrite Nat.sub_0_r; split; [lia|exact Ex]|].
      exists s. apply SomeOf. now apply G2.
    - intros i j v Hv. destruct (Dr i j v Hv) as (q & x & k & _ & _ & Hg). apply generate_claim_range in Hg. unfold d in Hg. lia.
    - intros j x Hx. apply nth_error_In, draw_range in Hx; unfold d in *; lia.
  Qed.
  (** all true values are known: one per variable *)
  Theorem C15_true_values (tv : list nat) j : dget (true_dict tv) j = nth_error tv j.
  Proof.
    unfold true_dict. assert (G : forall k, dget (enum_from k tv) j = if k <=? j then nth_error tv (j - k) else None).
    { induction tv as [|x tv IH]; intros k; cbn [enum_from dget]; [destruct (k <=? j); [now destruct (j - k)|reflexivity]|]. change (beq j k) with (Nat.eqb j k).
      destruct (Nat.eqb_spec j k) as [->|N]; [now rewrite Nat.leb_refl, Nat.sub_diag|]. rewrite IH. destruct (Nat.leb_spec (S k) j), (Nat.leb_spec k j); try lia; [|reflexivity]. now replace (j - k) with (S (j - S k)) by lia. }
    rewrite G. cbn. now rewrite Nat.sub_0_r.
  Qed.
  (** in terms of the dataset: every source and every variable appears *)
  Theorem C15_dataset {W} `{Eqb W} {F' : Num} {FOK : NumOK F'} (label : nat -> W) (g : rng F) tr nv cp dom m tv (ds : dataset nat nat W F') :
    generate g (Trust1 tr) nv cp dom = Ok (m, tv) -> matrix_dataset label false None m = Ok ds ->
    (forall i, i < length tr <-> source_id ds i <> None) /\ (forall j, (Z.of_nat j < nv)%Z <-> variable_id ds j <> None).
  Proof.
    intros E Ed. destruct (C15_complete _ _ _ _ _ _ _ E) as (Hn & Lt & Sh & Rows & Cols & _ & _). destruct (C09_matrix_dataset label false None m ds Ed) as (Hs & Hv & _). split.
    - intros i. rewrite Hs. split; [intros Hi; destruct (Rows i Hi) as (j & v & H1); eauto|]. intros (j & v & H1). apply (cell_range _ _ _ i j Sh). congruence.
    - intros j. rewrite Hv. split; [intros Hj; destruct (Cols j) as (i & v & H1); [lia|eauto]|]. intros (i & v & H1). assert (Q : cell m i j <> None) by congruence. apply (cell_range _ _ _ i j Sh) in Q. lia.
  Qed.
End Synth.

(** ** exact arithmetic: the sampler gets a probability distribution and draws from it *)
Section Exact.
  Local Open Scope R_scope.
  (** the random numbers are in [0, 1) *)
  Definition uniform (g : rng XR) : Prop := forall k, exists u, rn_unif g k = Fin u /\ 0 <= u < 1.

  Fixpoint csum (acc : R) (xs : list R) : list R := match xs with [] => [] | x :: t => (acc + x) :: csum (acc + x) t end.
  Lemma cumsum_fin acc xs : cumsum (F:=XR) (Fin acc) (map Fin xs) = map Fin (csum acc xs).
  Proof. revert acc. induction xs as [|x t IH]; intros acc; [reflexivity|]. cbn [map cumsum csum]. f_equal. apply IH. Qed.
  Lemma csum_last acc xs d : xs <> [] -> last (csum acc xs) d = acc + rsum (fun x => x) xs.
  Proof.
    revert acc. induction xs as [|x t IH]; intros acc NE; [congruence|]. destruct t as [|y t]; [cbn; lra|]. change (last (csum acc (x :: y :: t)) d) with (last (csum (acc + x) (y :: t)) d). rewrite IH by discriminate. cbn. lra.
  Qed.
  Lemma csum_ge acc xs c : (forall x, In x xs -> 0 <= x) -> In c (csum acc xs) -> acc <= c.
  Proof.
    revert acc. induction xs as [|x t IH]; intros acc H; cbn; [intros []|]. assert (0 <= x) by (apply H; now left). intros [<-|Hc]; [lra|]. apply IH in Hc; [lra|]. intros y Hy. apply H. now right.
  Qed.
  Definition rleb (a b : R) : bool := rltb a b || reqb a b.
  Lemma rleb_spec a b : reflect (a <= b) (rleb a b).
  Proof. unfold rleb. destruct (rltb_spec a b); cbn; [constructor; lra|]. destruct (reqb_spec a b); constructor; lra. Qed.
  (** the number of partial sums that do not exceed b is the index of an item with positive probability *)
  Lemma draw_positive xs acc b : (forall x, In x xs -> 0 <= x) -> acc <= b -> b < acc + rsum (fun x => x) xs ->
    exists x, nth_error xs (length (filter (fun c => rleb c b) (csum acc xs))) = Some x /\ 0 < x.
  Proof.
    revert acc. induction xs as [|x t IH]; intros acc H Ha Hb; [cbn in Hb; lra|]. cbn [csum filter]. assert (Hx : 0 <= x) by (apply H; now left).
    assert (Ht : forall y, In y t -> 0 <= y) by (intros y Hy; apply H; now right). destruct (rleb_spec (acc + x) b) as [L|L].
    - cbn [length nth_error]. apply IH; auto. cbn in Hb. lra.
    - assert (E : filter (fun c => rleb c b) (csum (acc + x) t) = []).
      { assert (G : forall c, In c (csum (acc + x) t) -> rleb c b = false) by (intros c Hc; apply csum_ge in Hc; auto; destruct (rleb_spec c b); [lra|reflexivity]).
        induction (csum (acc + x) t) as [|c l IHl]; [reflexivity|]. cbn. rewrite (G c) by now left. apply IHl. intros; apply G; now right. }
      rewrite E. exists x. split; [reflexivity|lra].
  Qed.
  Lemma np_choice_index g k u xs : rn_unif g k = Fin u -> 0 <= u < 1 -> (forall x, In x xs -> 0 <= x) -> rsum (fun x => x) xs = 1 ->
    np_choice (F:=XR) g k (map Fin xs) = Ok (length (filter (fun c => rleb c u) (csum 0 xs))).
  Proof.
    intros Eu Hu Hp Hs. destruct (draw_positive xs 0 u Hp) as (x & Hx & Px); [lra|lra|]. unfold np_choice.
    assert (Sm : vsum (F:=XR) (map Fin xs) = Fin 1) by (rewrite <- Hs; exact (vsum_fin (fun x => x) xs)).
    assert (E1 : n_eqb (n:=XR) (vsum (F:=XR) (map Fin xs)) (vsum (F:=XR) (map Fin xs)) = true) by (rewrite Sm; cbn; apply reqb_refl). rewrite E1. cbn [negb].
    assert (E2 : existsb (fun x : XR => n_ltb x (n_ofZ 0)) (map Fin xs) = false).
    { apply Bool.not_true_is_false. intros Q. apply existsb_exists in Q. destruct Q as (y & Hy & Q). apply in_map_iff in Hy. destruct Hy as (z & <- & Hz). cbn in Q. rewrite rltb_false in Q by (now apply Hp). discriminate. }
    rewrite E2. assert (E3 : n_ltb (n:=XR) choice_atol (n_abs (n_sub (vsum (F:=XR) (map Fin xs)) (n_ofZ 1))) = false).
    { rewrite Sm. assert (A : choice_atol (F:=XR) = Fin (IZR 1 / IZR 67108864)) by (apply lit_fin; lra). rewrite A. cbn. apply rltb_false. match goal with |- context [Rabs ?z] => replace z with 0 by lra end. rewrite Rabs_R0. lra. }
    rewrite E3. assert (Ec : cumsum (F:=XR) (n_ofZ 0) (map Fin xs) = map Fin (csum 0 xs)) by exact (cumsum_fin 0 xs). rewrite Ec.
    assert (NE : xs <> []) by (intros ->; cbn in Hs; lra). pose proof (csum_last 0 xs 0 NE) as La. rewrite Hs, Rplus_0_l in La.
    destruct (csum 0 xs) as [|c cs] eqn:Ecs; [destruct xs; [congruence|discriminate]|]. cbn [map]. cbv zeta.
    assert (El : last (map Fin cs) (Fin c) = Fin 1).
    { rewrite <- La. clear. revert c. induction cs as [|y cs IH]; intros c; [reflexivity|]. cbn [map]. destruct cs as [|z cs]; [reflexivity|]. exact (IH c). }
    assert (Ef : length (filter (fun y : XR => n_leb y (rn_unif g k)) (map (fun y : XR => n_div y (last (map Fin cs) (Fin c))) (Fin c :: map Fin cs))) = length (filter (fun c => rleb c u) (c :: cs))).
    { rewrite Eu, El. change (Fin c :: map Fin cs) with (map Fin (c :: cs)). rewrite map_map. generalize (c :: cs). clear. intros l. induction l as [|y l IH]; [reflexivity|].
      cbn [map filter]. assert (D : n_div (n:=XR) (Fin y) (Fin 1) = Fin y) by (transitivity (Fin (y / 1)); [apply xdiv_fin; lra|f_equal; lra]).
      assert (B : n_leb (F:=XR) (n_div (n:=XR) (Fin y) (Fin 1)) (Fin u) = rleb y u) by (rewrite D; reflexivity). rewrite B. destruct (rleb y u); cbn [length]; congruence. }
    change (@cons (num XR) (Fin c) (map Fin cs)) with (@cons xr (Fin c) (map Fin cs)).
    match goal with |- (if Nat.ltb ?a ?b then _ else _) = _ => assert (Ea : a = length (filter (fun c => rleb c u) (c :: cs))) by exact Ef; assert (Eb : b = length xs) by (apply map_length) end.
    rewrite Ea, Eb. destruct (Nat.ltb_spec (length (filter (fun c => rleb c u) (c :: cs))) (length xs)) as [L|L]; [reflexivity|].
    exfalso. apply nth_error_None in L. congruence.
  Qed.
  Lemma np_choice_fin g k u xs : rn_unif g k = Fin u -> 0 <= u < 1 -> (forall x, In x xs -> 0 <= x) -> rsum (fun x => x) xs = 1 ->
    exists i x, np_choice (F:=XR) g k (map Fin xs) = Ok i /\ nth_error xs i = Some x /\ 0 < x.
  Proof.
    intros Eu Hu Hp Hs. destruct (draw_positive xs 0 u Hp) as (x & Hx & Px); [lra|lra|].
    exists (length (filter (fun c => rleb c u) (csum 0 xs))), x. split; [now apply np_choice_index|auto].
  Qed.

  (** the probability with which a source of trust [a] claims value [i] when [x] is true *)
  Definition claim_prob (a : R) (x d i : nat) : R := if Nat.eqb i x then a else (1 - a) / (INR d - 1).
  Lemma nth_error_ext_all {A} (l m : list A) : (forall i, nth_error l i = nth_error m i) -> l = m.
  Proof.
    revert m. induction l as [|x l IH]; intros [|y m] H; [reflexivity|specialize (H 0%nat); discriminate|specialize (H 0%nat); discriminate|].
    pose proof (H 0%nat) as H0. cbn in H0. injection H0 as ->. f_equal. apply IH. intros i. exact (H (Datatypes.S i)).
  Qed.
  Lemma prob_dist_fin a x d : (2 <= d)%nat -> (x < d)%nat -> prob_dist (F:=XR) (Fin a) x d = map Fin (map (claim_prob a x d) (seq 0 d)).
  Proof.
    intros Hd Hx. unfold prob_dist. cbv zeta. assert (P : 0 < INR d - 1) by (apply le_INR in Hd; cbn in Hd; lra).
    assert (E : n_div (n:=XR) (n_sub (n_ofZ 1) (Fin a)) (n_ofZ (Z.of_nat d - 1)) = Fin ((1 - a) / (INR d - 1))).
    { transitivity (xdiv (Fin (1 - a)) (Fin (IZR (Z.of_nat d - 1)))); [reflexivity|]. rewrite minus_IZR, <- INR_IZR_INZ. apply xdiv_fin. lra. }
    rewrite E. apply nth_error_ext_all. intros i. rewrite set_nth_get, repeat_length, !nth_error_map. destruct (Nat.ltb_spec x d); [|lia]. rewrite andb_true_r.
    destruct (Nat.lt_ge_cases i d) as [Hi|Hi].
    - assert (Es : nth_error (seq 0 d) i = Some i) by (rewrite nth_error_nth' with (d := 0%nat) by (now rewrite seq_length); now rewrite seq_nth).
      rewrite Es. cbn [option_map]. unfold claim_prob. destruct (Nat.eqb i x); [reflexivity|]. now apply nth_error_repeat.
    - assert (Es : nth_error (seq 0 d) i = None) by (apply nth_error_None; now rewrite seq_length). rewrite Es. cbn [option_map]. destruct (Nat.eqb_spec i x); [lia|]. apply nth_error_None. rewrite repeat_length. lia.
  Qed.
  Lemma claim_prob_range a x d i : 0 <= a <= 1 -> (2 <= d)%nat -> 0 <= claim_prob a x d i <= 1.
  Proof.
    intros Ha Hd. unfold claim_prob. destruct (Nat.eqb i x); [exact Ha|]. assert (P : 1 <= INR d - 1) by (apply le_INR in Hd; cbn in Hd; lra).
    split; [apply Rmult_le_pos; [lra|left; apply Rinv_0_lt_compat; lra]|]. apply (Rmult_le_reg_r (INR d - 1)); [lra|]. unfold Rdiv. rewrite Rmult_assoc, Rinv_l; lra.
  Qed.
  Lemma claim_prob_sum a x d : (2 <= d)%nat -> (x < d)%nat -> rsum (claim_prob a x d) (seq 0 d) = 1.
  Proof.
    intros Hd Hx. set (w := (1 - a) / (INR d - 1)). assert (P : 0 < INR d - 1) by (apply le_INR in Hd; cbn in Hd; lra).
    rewrite (rsum_ext _ (fun i => w + (if Nat.eqb i x then a - w else 0))) by (intros i _; unfold claim_prob; fold w; destruct (Nat.eqb i x); lra).
    rewrite rsum_plus, rsum_const, seq_length. assert (I : forall n, rsum (fun i => if Nat.eqb i x then a - w else 0) (seq 0 n) = if Nat.ltb x n then a - w else 0).
    { induction n as [|n IH]; [reflexivity|]. rewrite seq_S, rsum_app, IH. rewrite Nat.add_0_l. cbn [rsum map fold_right]. destruct (Nat.ltb_spec x n), (Nat.eqb_spec n x), (Nat.ltb_spec x (Datatypes.S n)); try lia; try lra. }
    rewrite I. destruct (Nat.ltb_spec x d); [|lia]. assert (Q : w * (INR d - 1) = 1 - a) by (unfold w; field; lra). clearbody w. nra.
  Qed.
  (** C14: what is handed to the sampler is a probability distribution with the right entries *)
  Theorem C14_probabilities a x d : 0 <= a <= 1 -> (2 <= d)%nat -> (x < d)%nat ->
    exists p : nat -> R, prob_dist (F:=XR) (Fin a) x d = map (fun i => Fin (p i)) (seq 0 d) /\ (forall i, 0 <= p i <= 1) /\ rsum p (seq 0 d) = 1 /\
      p x = a /\ forall i j, i <> x -> j <> x -> p i = p j.
  Proof.
    intros Ha Hd Hx. exists (claim_prob a x d). split; [rewrite prob_dist_fin by assumption; now rewrite map_map|]. split; [intros i; now apply claim_prob_range|]. split; [now apply claim_prob_sum|].
    unfold claim_prob. rewrite Nat.eqb_refl. split; [reflexivity|]. intros i j Hi Hj. apply Nat.eqb_neq in Hi, Hj. now rewrite Hi, Hj.
  Qed.
  (** a claim can always be generated, and has positive probability *)
  Lemma generate_claim_fin g k a x d : uniform g -> 0 <= a <= 1 -> (2 <= d)%nat -> (x < d)%nat ->
    exists v, generate_claim (F:=XR) g k (Fin a) x d = Ok v /\ (v < d)%nat /\ 0 < claim_prob a x d v.
  Proof.
    intros U Ha Hd Hx. destruct (U k) as (u & Eu & Hu). unfold generate_claim. rewrite prob_dist_fin by assumption.
    destruct (np_choice_fin g k u (map (claim_prob a x d) (seq 0 d)) Eu Hu) as (i & q & E & Hq & Pq).
    - intros y Hy. apply in_map_iff in Hy. destruct Hy as (i & <- & _). now apply claim_prob_range.
    - rewrite rsum_map. now apply claim_prob_sum.
    - exists i. split; [exact E|]. rewrite nth_error_map in Hq. destruct (nth_error (seq 0 d) i) as [i'|] eqn:Es; [|discriminate]. injection Hq as <-.
      assert (Hi : (i < d)%nat) by (rewrite <- (seq_length d 0); apply nth_error_Some; congruence). rewrite nth_error_nth' with (d := 0%nat) in Es by (now rewrite seq_length). rewrite seq_nth in Es by exact Hi. cbn in Es. injection Es as <-. auto.
  Qed.

  (** the parameters the documentation allows; a NaN claim probability slips through the checks *)
  Definition valid_trust (tr : list XR) : Prop := tr <> [] /\ forall t, In t tr -> exists a, t = Fin a /\ 0 <= a <= 1.
  Definition valid_prob (cp : XR) : Prop := cp = NaN \/ exists q, cp = Fin q /\ 0 < q <= 1.

  Lemma trust_check (tr : list XR) : existsb (fun x => negb (n_eqb x x)) tr || existsb (fun x : XR => n_ltb x (n_ofZ 0)) tr || existsb (fun x : XR => n_ltb (n_ofZ 1) x) tr = false <->
    forall t, In t tr -> exists a, t = Fin a /\ 0 <= a <= 1.
  Proof.
    rewrite !orb_false_iff. rewrite <- !Bool.not_true_iff_false, !existsb_exists. split.
    - intros [[H1 H2] H3] t Ht. destruct t as [a| | |].
      + exists a. split; [reflexivity|]. split.
        * apply Rnot_lt_le. intros L. apply H2. exists (Fin a). split; [exact Ht|]. cbn. now apply rltb_true.
        * apply Rnot_lt_le. intros L. apply H3. exists (Fin a). split; [exact Ht|]. cbn. now apply rltb_true.
      + exfalso. apply H3. exists PInf. auto.
      + exfalso. apply H2. exists NInf. auto.
      + exfalso. apply H1. exists NaN. auto.
    - intros H. repeat split; intros (t & Ht & Q); destruct (H t Ht) as (a & -> & Ha); cbn in Q.
      + rewrite reqb_refl in Q. discriminate.
      + rewrite rltb_false in Q by lra. discriminate.
      + rewrite rltb_false in Q by lra. discriminate.
  Qed.
  Lemma prob_check (cp : XR) : n_leb cp (n_ofZ 0) || n_ltb (n_ofZ 1) cp = false <-> valid_prob cp.
  Proof.
    unfold valid_prob, n_leb. destruct cp as [q| | |]; cbn; split; intros H; try discriminate; try (now left); try (destruct H as [H|(q' & H & _)]; discriminate).
    - right. exists q. split; [reflexivity|]. apply orb_false_iff in H. destruct H as [H1 H2]. apply orb_false_iff in H1. destruct H1 as [H1 H3].
      destruct (rltb_spec q 0); [discriminate|]. destruct (reqb_spec q 0); [discriminate|]. destruct (rltb_spec 1 q); [discriminate|]. lra.
    - destruct H as [H|(q' & [= ->] & Hq)]; [discriminate|]. rewrite (rltb_false q' 0), (reqb_false q' 0), (rltb_false 1 q') by lra. reflexivity.
    - reflexivity.
  Qed.
  (** C14: accepted, for every outcome of the random generator, iff the parameters are valid *)
  Theorem C14_accepts_iff g tr nv cp dom : uniform g ->
    ((exists q, generate g tr nv cp dom = Ok q) <-> exists v, tr = Trust1 v /\ valid_trust v /\ valid_prob cp /\ (2 <= dom)%Z /\ (1 <= nv)%Z).
  Proof.
    intros U. split.
    - intros [[m tv] E]. destruct tr as [v|n]; [|discriminate]. destruct (C15_complete _ _ _ _ _ _ _ E) as (Hn & _). exists v. cbn [generate] in E.
      destruct (Nat.eqb_spec (length v) 0); [discriminate|]. destruct (_ || _ || _) eqn:E1; [discriminate|]. destruct (_ || _) eqn:E2 in E; [discriminate|]. destruct (Z.leb_spec dom 1); [discriminate|].
      split; [reflexivity|]. split; [split; [intros ->; contradiction|now apply trust_check]|]. split; [now apply prob_check|]. split; lia.
    - intros (v & -> & [NE Ht] & Hc & Hd & Hn). cbn [generate]. destruct (Nat.eqb_spec (length v) 0) as [L|_]; [destruct v; [congruence|discriminate]|].
      rewrite (proj2 (trust_check v) Ht), (proj2 (prob_check cp) Hc). destruct (Z.leb_spec dom 1); [lia|]. destruct (Z.ltb_spec nv 0); [lia|]. cbv zeta.
      set (d := Z.to_nat dom). set (n := Z.to_nat nv). set (t := draw_true_values g n d). assert (Lt : length t = n) by apply draw_length.
      assert (Gen : forall t' x k, In t' v -> In x t -> exists w, generate_claim g k t' x d = Ok w).
      { intros t' x k H1 H2. destruct (Ht t' H1) as (a & -> & Ha). apply draw_range in H2; [|unfold d; lia]. destruct (generate_claim_fin g k a x d U Ha) as (w & E & _); [unfold d; lia|exact H2|eauto]. }
      destruct (var_loop_total g v t cp d Gen (enum_from 0 t) (repeat (repeat None n) (length v), n) NE) as [st1 E1].
      { intros j x H1. apply enum_from_In in H1. destruct H1 as [_ H1]. now apply nth_error_In in H1. }
      rewrite E1. cbn [bind]. destruct (fill_loop_total g v t d Gen nv (seq 0 (length v)) st1) as [st2 E2].
      + rewrite Lt. unfold n. lia.
      + intros Q. apply (f_equal (@length _)) in Q. rewrite Lt in Q. unfold n in Q. cbn in Q. lia.
      + intros s Hs. apply in_seq in Hs. lia.
      + rewrite E2. cbn [bind]. eauto.
  Qed.
  (** C15: a source with trust 1 only makes true claims, one with trust 0 only false ones *)
  Theorem C15_trust_one_zero g tr nv cp dom m tv : uniform g -> generate g (Trust1 tr) nv cp dom = Ok (m, tv) ->
    forall i j v x, cell m i j = Some v -> nth_error tv j = Some x -> (nth_error tr i = Some (Fin 1) -> v = x) /\ (nth_error tr i = Some (Fin 0) -> v <> x).
  Proof.
    intros U E i j v x Hv Hx. assert (Valid : exists v0, Trust1 tr = Trust1 v0 /\ valid_trust v0 /\ valid_prob cp /\ (2 <= dom)%Z /\ (1 <= nv)%Z) by (apply (C14_accepts_iff g (Trust1 tr) nv cp dom U); eauto).
    destruct Valid as (v0 & [= <-] & Ht & Hc & Hd & Hn). cbn [generate] in E. destruct (Nat.eqb_spec (length tr) 0) as [|Ltr]; [discriminate|]. destruct (_ || _ || _); [discriminate|]. destruct (_ || _) in E; [discriminate|].
    destruct (Z.leb_spec dom 1) as [|Hdom]; [discriminate|]. destruct (Z.ltb_spec nv 0) as [|Hnv]; [discriminate|]. cbv zeta in E.
    set (d := Z.to_nat dom) in *. set (n := Z.to_nat nv) in *. set (t := draw_true_values g n d) in *. assert (Lt : length t = n) by apply draw_length.
    apply bind_Ok in E. destruct E as (st1 & E1 & E). apply bind_Ok in E. destruct E as (st2 & E2 & E). injection E as <- <-.
    assert (D0 : drawn g tr t d (fst (repeat (repeat None n) (length tr), n))).
    { cbn [fst]. rewrite <- Lt. split; [apply shape_blank|]. intros s j' v' H. rewrite cell_blank in H. discriminate. }
    assert (Hen : forall j x, In (j, x) (enum_from 0 t) -> nth_error t j = Some x) by (intros j' x' H; apply enum_from_In in H; now rewrite Nat.sub_0_r in H).
    destruct (var_loop_ok g tr t cp d _ _ _ D0 Hen E1) as (D1 & _). destruct (fill_loop_ok g tr t d _ _ _ _ D1 E2) as ((_ & Dr) & _).
    destruct (Dr i j v Hv) as (q & x' & k & Hq & Hx' & Hg). rewrite Hx in Hx'. injection Hx' as <-. assert (Hxd : (x < d)%nat) by (apply nth_error_In, draw_range in Hx; unfold d in *; lia).
    assert (H2 : (2 <= d)%nat) by (unfold d; lia). rewrite Hq. split; intros [= ->].
    - destruct (generate_claim_fin g k 1 x d U ltac:(lra) H2 Hxd) as (w & Ew & _ & Pw). rewrite Hg in Ew. injection Ew as <-. unfold claim_prob in Pw.
      destruct (Nat.eqb_spec v x) as [|N]; [assumption|]. exfalso. replace ((1 - 1) / (INR d - 1)) with 0 in Pw by (unfold Rdiv; lra). lra.
    - destruct (generate_claim_fin g k 0 x d U ltac:(lra) H2 Hxd) as (w & Ew & _ & Pw). rewrite Hg in Ew. injection Ew as <-. unfold claim_prob in Pw.
      destruct (Nat.eqb_spec v x) as [|N]; [exfalso; lra|assumption].
  Qed.
End Exact.

(** ** which error, in any arithmetic *)
Theorem C14_errors {F : Num} (g : rng F) nv cp dom :
  (forall n, generate g (TrustN n) nv cp dom = Err BadTrustDim) /\
  generate g (Trust1 []) nv cp dom = Err EmptyTrust /\
  (forall tr t, In t tr -> n_eqb t t = false \/ n_ltb t (n_ofZ 0) = true \/ n_ltb (n_ofZ 1) t = true -> generate g (Trust1 tr) nv cp dom = Err BadTrust).
Proof.
  split; [reflexivity|]. split; [reflexivity|]. intros tr t Ht H. cbn [generate]. destruct (Nat.eqb_spec (length tr) 0) as [L|_]; [destruct tr; [destruct Ht|discriminate]|].
  assert (E : existsb (fun x : F => negb (n_eqb x x)) tr || existsb (fun x : F => n_ltb x (n_ofZ 0)) tr || existsb (fun x : F => n_ltb (n_ofZ 1) x) tr = true); [|now rewrite E].
  rewrite !orb_true_iff, !existsb_exists. destruct H as [H|[H|H]]; [left; left; exists t; rewrite H; auto|left; right; eauto|right; eauto].
Qed.

(** ... and over the reals: every invalid combination is refused with a ValueError, whatever the random draws *)
Definition value_error (e : syn_err) : Prop := e <> SynIndex.
Theorem C14_rejects (g : rng XR) (tr : trust_arg XR) nv cp dom :
  ~ (exists v, tr = Trust1 v /\ valid_trust v /\ valid_prob cp /\ (2 <= dom)%Z /\ (1 <= nv)%Z) ->
  exists e, generate g tr nv cp dom = Err e /\ value_error e /\
    (forall v, tr = Trust1 v -> valid_trust v -> ~ valid_prob cp -> e = BadClaimProbability) /\
    (forall v, tr = Trust1 v -> valid_trust v -> valid_prob cp -> (dom < 2)%Z -> e = BadDomainSize) /\
    (forall v, tr = Trust1 v -> valid_trust v -> valid_prob cp -> (2 <= dom)%Z -> e = RandInt).
Proof.
  intros N. destruct tr as [v|n]; [|exists BadTrustDim; split; [reflexivity|]; split; [discriminate|]; repeat split; intros v' [=]].
  cbn [generate]. destruct (Nat.eqb_spec (length v) 0) as [L|L].
  { exists EmptyTrust. split; [reflexivity|]. split; [discriminate|]. repeat split; intros v' [= <-] [Ne _]; destruct v; congruence || discriminate. }
  assert (Ne : v <> []) by (intros ->; now apply L).
  destruct (existsb (fun x : XR => negb (n_eqb x x)) v || existsb (fun x : XR => n_ltb x (n_ofZ 0)) v || existsb (fun x : XR => n_ltb (n_ofZ 1) x) v) eqn:E1.
  { exists BadTrust. split; [reflexivity|]. split; [discriminate|]. repeat split; intros v' [= <-] [_ H]; pose proof (proj2 (trust_check v) H) as H'; congruence. }
  pose proof (proj1 (trust_check v) E1) as E1'. assert (Vt : valid_trust v) by (split; assumption).
  destruct (n_leb cp (n_ofZ 0) || n_ltb (n_ofZ 1) cp) eqn:E2.
  { exists BadClaimProbability. split; [reflexivity|]. split; [discriminate|]. repeat split; intros v' _ _ H; try reflexivity; pose proof (proj2 (prob_check cp) H) as H'; congruence. }
  pose proof (proj1 (prob_check cp) E2) as E2'. destruct (Z.leb_spec dom 1) as [D|D].
  { exists BadDomainSize. split; [reflexivity|]. split; [discriminate|]. repeat split; intros v' _ _ H; [contradiction|lia]. }
  assert (Nv : (nv < 1)%Z) by (apply Z.nle_gt; intros Q; apply N; exists v; repeat split; try assumption; lia).
  destruct (Z.ltb_spec nv 0) as [Hn|Hn].
  { exists RandInt. split; [reflexivity|]. split; [discriminate|]. repeat split; intros v' _ _ H; [contradiction|lia]. }
  assert (nv = 0%Z) by lia. subst nv. exists RandInt. split.
  - cbv zeta. destruct v as [|t v]; [contradiction|]. reflexivity.
  - split; [discriminate|]. repeat split; intros v' _ _ H; [contradiction|lia].
Qed.

(** ** C16 *)
Section SynthCsv.
  Context {C : Type} {F : Num}.
  Variable parse : pystr -> option (option C).
  Variable show : C -> pystr.
  Hypothesis OK : prints_numbers parse show.
  (** integers as entries of a float matrix *)
  Variable num_of : nat -> C.
  Definition numeric (m : matrix nat) : matrix C := map (map (option_map num_of)) m.
  Lemma cell_numeric m i j : cell (numeric m) i j = option_map num_of (cell m i j).
  Proof. unfold cell, numeric. rewrite nth_error_map. destruct (nth_error m i) as [row|]; [|reflexivity]. cbn [option_map]. rewrite nth_error_map. now destruct (nth_error row j). Qed.

  (** what SyntheticData.to_csv() writes *)
  Definition synth_csv (m : matrix nat) (tv : list nat) : pystr := to_csv show (numeric (csv_matrix m (true_dict tv))).
  Theorem C16_synthetic_round_trip {W} `{Eqb W} {F' : Num} {FOK : NumOK F'} (label : C -> W) (g : rng F) tr nv cp dom m tv :
    generate g (Trust1 tr) nv cp dom = Ok (m, tv) ->
    exists vals (d : dataset nat nat W F'), supervised_from_csv label parse (synth_csv m tv) = Ok (vals, numeric m, d) /\
      matrix_dataset label false None (numeric m) = Ok d /\ forall j, dget vals j = option_map num_of (nth_error tv j).
  Proof.
    intros E. destruct (C15_complete _ _ _ _ _ _ _ E) as (Hn & Lt & [Lm Hr] & Rows & Cols & _ & _).
    assert (Lw : 1 <= length tv) by (rewrite Lt; lia). assert (Ltr : 1 <= length tr) by (destruct (Cols 0) as (i & v & Hv); [lia|]; assert (Q : cell m i 0 <> None) by congruence; apply (cell_range _ _ _ _ _ (conj Lm Hr)) in Q; lia).
    assert (Hd : length (hd [] m) = length tv) by (apply Hr; destruct m; [cbn in Lm; lia|now left]).
    set (M := numeric (csv_matrix m (true_dict tv))). assert (EM : M = map (option_map num_of) (map (fun j => dget (true_dict tv) j) (seq 0 (length tv))) :: numeric m) by (unfold M, csv_matrix; rewrite Hd; reflexivity).
    assert (NE : M <> []) by (rewrite EM; discriminate).
    assert (Cm : columns M (length tv)).
    { intros row Hrow. rewrite EM in Hrow. destruct Hrow as [<-|Hrow]; [now rewrite !map_length, seq_length|]. apply in_map_iff in Hrow. destruct Hrow as (r & <- & Hin). rewrite map_length. now apply Hr. }
    assert (C00 : forall j, cell M 0 j = option_map num_of (nth_error tv j)).
    { intros j. rewrite EM. unfold cell. cbn [nth_error]. rewrite !nth_error_map. destruct (Nat.lt_ge_cases j (length tv)) as [L|L].
      - assert (Es : nth_error (seq 0 (length tv)) j = Some j) by (rewrite nth_error_nth' with (d := 0) by (now rewrite seq_length); now rewrite seq_nth). rewrite Es. cbn [option_map]. now rewrite C15_true_values.
      - assert (Es : nth_error (seq 0 (length tv)) j = None) by (apply nth_error_None; now rewrite seq_length). rewrite Es. cbn [option_map]. apply nth_error_None in L. now rewrite L. }
    assert (K : keeps M (length tv)).
    { destruct (Nat.le_gt_cases 2 (length tv)) as [L|L]; [now left|]. right. right. split.
      - rewrite C00. destruct tv; [cbn in Lw; lia|discriminate].
      - assert (LM : length M = Datatypes.S (length tr)) by (rewrite EM; cbn; unfold numeric; now rewrite map_length, Lm). rewrite LM. replace (Datatypes.S (length tr) - 1) with (Datatypes.S (length tr - 1)) by lia.
        rewrite EM. change (cell (numeric m) (length tr - 1) 0 <> None). rewrite cell_numeric. destruct (Rows (length tr - 1)) as (j & v & Hv); [lia|].
        assert (j = 0) by (assert (Q : cell m (length tr - 1) j <> None) by congruence; apply (cell_range _ _ _ _ _ (conj Lm Hr)) in Q; lia). subst j. rewrite Hv. discriminate. }
    assert (Ecsv : csv_to_masked_array parse (synth_csv m tv) = Ok M) by (apply (keeps_round_trip parse show OK M (length tv)); auto).
    unfold supervised_from_csv. rewrite Ecsv. cbn [lift_csv bind]. assert (Etl : tl M = numeric m) by (rewrite EM; reflexivity). rewrite Etl.
    destruct (C09_matrix_accepted (F:=F') label false (numeric m)) as [ds Eds]. rewrite Eds. exists (true_values (hd [] M)), ds. split; [reflexivity|]. split; [reflexivity|].
    intros j. rewrite true_values_get, <- C00. unfold cell. destruct M as [|r0 M']; [congruence|]. reflexivity.
  Qed.
End SynthCsv.

(** * Non-vacuity: valid parameters, a generator of constant draws *)
Module SynthExamples.
  Local Open Scope R_scope.
  Definition g : rng XR := RNG (fun k => k) (fun _ => Fin (1/2)).
  Example g_uniform : uniform g.
  Proof. intros k. exists (1/2). split; [reflexivity|lra]. Qed.
  Example valid : exists m tv, generate g (Trust1 [Fin 1; Fin 0; Fin (3/4)]) 5 (Fin (1/3)) 4 = Ok (m, tv).
  Proof.
    destruct (proj2 (C14_accepts_iff g (Trust1 [Fin 1; Fin 0; Fin (3/4)]) 5 (Fin (1/3)) 4 g_uniform)) as [[m tv] E]; [|eauto].
    exists [Fin 1; Fin 0; Fin (3/4)]. split; [reflexivity|]. split; [split; [discriminate|]|].
    - intros t [<-|[<-|[<-|[]]]]; eexists; (split; [reflexivity|lra]).
    - split; [right; exists (1/3); split; [reflexivity|lra]|lia].
  Qed.
End SynthExamples.
