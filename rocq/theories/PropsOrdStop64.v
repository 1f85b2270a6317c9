(** C106: when a run with an OrdinalIterator stops, in double arithmetic. *)
From Coq Require Import ZArith Reals Lia.
From Flocq Require Import Core IEEE754.BinarySingleNaN.
From Verif Require Import Base Num Sparse Spec SpecAlg Dataset DatasetProofs DatasetRep Iterators Algorithms Driver Ranking Rounds Float PropsRun PropsAlg PropsFloat PropsUsums64.
Local Open Scope nat_scope.

(** ** The loop *)
Section Loop.
  Context {F : Num}.
  Variables (u v : nat -> vec F) (brk keeps : nat -> bool).
  Lemma loop_unbroken fuel : forall it j k it', it_loop u v brk fuel it j = ((Ok tt, k), it') -> j <= k < j + fuel /\ forall i, j <= i < k -> brk i = false.
  Proof.
    induction fuel as [|fuel IH]; intros it j k it' H; [discriminate|]. cbn [it_loop] in H. destruct (finished it) as [[]|]; [injection H as <- <-; split; [lia|intros; lia]| |discriminate].
    destruct (brk j) eqn:B; [injection H as <- <-; split; [lia|intros; lia]|]. destruct (compare it (u j) (v j)) as [[[]|] it1]; [|discriminate].
    destruct (IH _ _ _ _ H) as (H1 & H2). split; [lia|]. intros i Hi. destruct (Nat.eq_dec i j) as [->|]; [exact B|]. apply H2. lia.
  Qed.
  Lemma fixed_loop n : forall fuel j, j <= n < j + fuel -> (forall i, j <= i < n -> brk i = false) -> it_loop u v brk fuel (IFixed (Z.of_nat n) j) j = ((Ok tt, n), IFixed (Z.of_nat n) n).
  Proof.
    induction fuel as [|fuel IH]; intros j Hj Hb; [lia|]. cbn [it_loop finished]. destruct (Z.leb_spec (Z.of_nat n) (Z.of_nat j)).
    - replace n with j by lia. reflexivity.
    - rewrite (Hb j) by lia. cbn [compare]. apply IH; [lia|]. intros i Hi. apply Hb. lia.
  Qed.
  Lemma fixed_loop_end n fuel : forall j k it', it_loop u v brk fuel (IFixed n j) j = ((Ok tt, k), it') -> (Z.of_nat k <= Z.max (Z.of_nat j) n)%Z /\ (brk k = true \/ (n <= Z.of_nat k)%Z).
  Proof.
    induction fuel as [|fuel IH]; intros j k it' H; [discriminate|]. cbn [it_loop finished] in H. destruct (Z.leb_spec n (Z.of_nat j)); [injection H as <- <-; lia|].
    destruct (brk j) eqn:B; [injection H as <- <-; split; [lia|now left]|]. cbn [compare] in H. destruct (IH _ _ _ H). split; [lia|assumption].
  Qed.

  Definition quiet (t k : nat) : Prop := t <= k /\ forall i, k - t <= i < k -> keeps i = true.
  (* the comparisons before N are between vectors with a ranking *)
  Lemma ord_loop N t : (forall n c i, i < N -> (forall i', i' <= i -> brk i' = false) -> compare (IOrd t n c) (u i) (v i) = (Ok tt, IOrd t (Datatypes.S n) (if keeps i then Datatypes.S c else 0))) ->
    forall fuel n c j, c <= j <= N -> (forall i, i < j -> brk i = false) -> (forall i, j - c <= i < j -> keeps i = true) -> (c < j -> keeps (j - c - 1) = false) ->
    match it_loop u v brk fuel (IOrd t n c) j with
    | ((Ok tt, k), _) => k <= N -> j <= k < j + fuel /\ (quiet (Z.to_nat t) k \/ brk k = true) /\ forall k', j <= k' < k -> ~ quiet (Z.to_nat t) k' /\ brk k' = false
    | ((Err e, k), _) => e = OutOfFuel /\ (forall k', j <= k' < j + fuel -> k' <= N -> ~ quiet (Z.to_nat t) k' /\ brk k' = false) \/
                         (forall k', j <= k' <= N -> ~ quiet (Z.to_nat t) k' /\ brk k' = false)
    end.
  Proof.
    intros Hc. induction fuel as [|fuel IH]; intros n c j Hj Hbr Hk Hn; [left; split; [reflexivity|intros; lia]|].
    cbn [it_loop finished]. destruct (Z.leb_spec t (Z.of_nat c)) as [Ht|Ht].
    - intros _. split; [lia|]. split; [left; split; [lia|intros i Hi; apply Hk; lia]|intros; lia].
    - assert (Nq : ~ quiet (Z.to_nat t) j).
      { intros (Q1 & Q2). assert (H : c < j) by lia. specialize (Q2 (j - c - 1) ltac:(lia)). rewrite (Hn H) in Q2. discriminate. }
      destruct (brk j) eqn:Bj; [intros _; split; [lia|]; split; [now right|intros; lia]|].
      destruct (Nat.eq_dec j N) as [->|NN].
      + destruct (compare (IOrd t n c) (u N) (v N)) as [[[]|e] it1].
        * pose proof (loop_unbroken fuel it1 (Datatypes.S N)) as Lb. destruct (it_loop u v brk fuel it1 (Datatypes.S N)) as [[[[]|e] k] it']; [intros Hk'; destruct (Lb k it' eq_refl); lia|].
          right. intros k' Hk'. replace k' with N by lia. auto.
        * right. intros k' Hk'. replace k' with N by lia. auto.
      + assert (Hbr' : forall i, i < Datatypes.S j -> brk i = false) by (intros i Hi; destruct (Nat.eq_dec i j) as [->|]; [exact Bj|apply Hbr; lia]).
        rewrite (Hc n c j) by (lia || (intros; apply Hbr'; lia)). specialize (IH (Datatypes.S n) (if keeps j then Datatypes.S c else 0) (Datatypes.S j)).
        assert (IH' := IH ltac:(destruct (keeps j); lia) Hbr'). clear IH.
        assert (P1 : forall i, Datatypes.S j - (if keeps j then Datatypes.S c else 0) <= i < Datatypes.S j -> keeps i = true).
        { intros i Hi. destruct (Nat.eq_dec i j) as [->|Ni]; [destruct (keeps j); [reflexivity|lia]|]. destruct (keeps j); [apply Hk; lia|lia]. }
        assert (P2 : (if keeps j then Datatypes.S c else 0) < Datatypes.S j -> keeps (Datatypes.S j - (if keeps j then Datatypes.S c else 0) - 1) = false).
        { intros H. destruct (keeps j) eqn:Kj; [replace (Datatypes.S j - Datatypes.S c - 1) with (j - c - 1) by lia; apply Hn; lia|replace (Datatypes.S j - 0 - 1) with j by lia; exact Kj]. }
        specialize (IH' P1 P2). destruct (it_loop u v brk fuel (IOrd t (Datatypes.S n) (if keeps j then Datatypes.S c else 0)) (Datatypes.S j)) as [[[[]|e] k] it'].
        * intros HkN. destruct (IH' HkN) as (A & B & C). split; [lia|]. split; [exact B|]. intros k' Hk'. destruct (Nat.eq_dec k' j) as [->|]; [auto|apply C; lia].
        * destruct IH' as [(A & B)|B]; [left; split; [exact A|]|right]; intros k' Hk'; [intros HkN|]; destruct (Nat.eq_dec k' j) as [->|]; auto; apply B; lia.
  Qed.
End Loop.

(** ** Rankings of vectors of doubles *)
Section Ranks.
  Variable L : libm.
  Notation F := (B64 L).
  Context {A : Type} (dec : Eqb A) (l : list A).
  Hypothesis Few : (Z.of_nat (length l) < 2 ^ 53)%Z.
  Lemma dense_bound (rk : A -> nat) : (forall x n, In x l -> n < rk x -> exists y, In y l /\ rk y = n) -> forall x, In x l -> rk x < length l.
  Proof.
    intros D x Hx. assert (I : incl (seq 0 (Datatypes.S (rk x))) (map rk l)).
    { intros n Hn. apply in_seq in Hn. destruct (Nat.eq_dec n (rk x)) as [->|]; [now apply in_map|]. destruct (D x n Hx ltac:(lia)) as (y & Hy & <-). now apply in_map. }
    apply NoDup_incl_length in I; [|apply seq_NoDup]. rewrite seq_length, map_length in I. lia.
  Qed.
  Lemma ranks_agree (u v : A -> F) : (forall x, In x l -> is_nan (u x) = false) -> (forall x, In x l -> is_nan (v x) = false) ->
    exists r1 r2, get_ranking_vector (F:=F) (map u l) = Some r1 /\ get_ranking_vector (F:=F) (map v l) = Some r2 /\
      (vall_eq (F:=F) r1 r2 = true <-> forall x y, In x l -> In y l -> Bltb (u x) (u y) = Bltb (v x) (v y)).
  Proof.
    intros Gu Gv. destruct (rank_map L u l dec Gu) as (r1 & E1 & D1). destruct (rank_map L v l dec Gv) as (r2 & E2 & D2).
    destruct (dense_intro L u l r1 (fun x => Some (u x)) (fun x => Some (ofZ64 (Z.of_nat (r1 x)))) Gu D1) as (k1 & A1 & B1 & C1); auto.
    destruct (dense_intro L v l r2 (fun x => Some (v x)) (fun x => Some (ofZ64 (Z.of_nat (r2 x)))) Gv D2) as (k2 & A2 & B2 & C2); auto.
    eexists. eexists. split; [exact E1|]. split; [exact E2|].
    assert (Q1 : forall x, In x l -> ofZ64 (Z.of_nat (r1 x)) = ofZ64 (Z.of_nat (k1 x))) by (intros x Hx; destruct (A1 x Hx) as (w & _ & _ & Q); congruence).
    assert (Q2 : forall x, In x l -> ofZ64 (Z.of_nat (r2 x)) = ofZ64 (Z.of_nat (k2 x))) by (intros x Hx; destruct (A2 x Hx) as (w & _ & _ & Q); congruence).
    assert (Ev : vall_eq (F:=F) (map (fun x => ofZ64 (Z.of_nat (r1 x))) l) (map (fun x => ofZ64 (Z.of_nat (r2 x))) l) = true <-> forall x, In x l -> k1 x = k2 x).
    { rewrite (map_ext_in _ (fun x => ofZ64 (Z.of_nat (k1 x))) l Q1), (map_ext_in _ (fun x => ofZ64 (Z.of_nat (k2 x))) l Q2).
      assert (G : forall m : list A, incl m l -> (vall_eq (F:=F) (map (fun x => ofZ64 (Z.of_nat (k1 x))) m) (map (fun x => ofZ64 (Z.of_nat (k2 x))) m) = true <-> forall x, In x m -> k1 x = k2 x)).
      { induction m as [|x m IH]; intros Hm; [cbn; split; [intros _ x []|reflexivity]|].
        change (vall_eq (F:=F) (map (fun x => ofZ64 (Z.of_nat (k1 x))) (x :: m)) (map (fun x => ofZ64 (Z.of_nat (k2 x))) (x :: m))) with (n_eqb (n:=F) (ofZ64 (Z.of_nat (k1 x))) (ofZ64 (Z.of_nat (k2 x))) && vall_eq (F:=F) (map (fun x => ofZ64 (Z.of_nat (k1 x))) m) (map (fun x => ofZ64 (Z.of_nat (k2 x))) m))%bool.
        rewrite andb_true_iff, IH by (intros y Hy; apply Hm; now right).
        assert (Hx : In x l) by (apply Hm; now left). pose proof (dense_bound k1 C1 x Hx). pose proof (dense_bound k2 C2 x Hx).
        assert (Eq : n_eqb (n:=F) (ofZ64 (Z.of_nat (k1 x))) (ofZ64 (Z.of_nat (k2 x))) = true <-> k1 x = k2 x).
        { destruct (ofZ64_isf (Z.of_nat (k1 x))) as (F1 & V1); [lia|]. destruct (ofZ64_isf (Z.of_nat (k2 x))) as (F2 & V2); [lia|].
          change (n_eqb (n:=F) (ofZ64 (Z.of_nat (k1 x))) (ofZ64 (Z.of_nat (k2 x)))) with (Beqb (ofZ64 (Z.of_nat (k1 x))) (ofZ64 (Z.of_nat (k2 x)))). rewrite Beqb_correct by assumption.
          split; [|intros Ek; apply Req_bool_true; exact (f_equal (fun n => B2R (ofZ64 (Z.of_nat n))) Ek)]. destruct (Req_bool_spec (B2R (ofZ64 (Z.of_nat (k1 x)))) (B2R (ofZ64 (Z.of_nat (k2 x))))) as [H1|]; [|discriminate]. intros _. pose proof (eq_trans (eq_sym V1) (eq_trans H1 V2)) as H2. apply eq_IZR in H2. lia. }
        rewrite Eq. split; [intros (Hk & H1) y [Hy|Hy]; [subst y; exact Hk|auto]|intros H1; split; [apply H1; now left|intros y Hy; apply H1; now right]]. }
      apply G. apply incl_refl. }
    rewrite Ev. split.
    - intros H x y Hx Hy. rewrite (B1 x y _ _ Hx Hy eq_refl eq_refl), (B2 x y _ _ Hx Hy eq_refl eq_refl), (H x Hx), (H y Hy). reflexivity.
    - intros H.
      assert (O : forall x y, In x l -> In y l -> (k1 x < k1 y <-> k2 x < k2 y)).
      { intros x y Hx Hy. specialize (H x y Hx Hy). rewrite (B1 x y _ _ Hx Hy eq_refl eq_refl), (B2 x y _ _ Hx Hy eq_refl eq_refl) in H. rewrite <- !Nat.ltb_lt, H. reflexivity. }
      assert (G : forall n x, k1 x < n -> In x l -> k1 x = k2 x).
      { induction n as [|n IH]; intros x Hn Hx; [lia|]. destruct (Nat.lt_trichotomy (k1 x) (k2 x)) as [Q|[Q|Q]]; [|exact Q|].
        - destruct (C2 x (k1 x) Hx Q) as (z & Hz & Ez). assert (Z2 : k2 z < k2 x) by lia. apply (O z x Hz Hx) in Z2. assert (k1 z = k2 z) by (apply IH; [lia|exact Hz]). lia.
        - destruct (C1 x (k2 x) Hx Q) as (z & Hz & Ez). assert (Z2 : k1 z < k1 x) by lia. assert (k1 z = k2 z) by (apply IH; [lia|exact Hz]). apply (O z x Hz Hx) in Z2. lia. }
      intros x Hx. exact (G (Datatypes.S (k1 x)) x (Nat.lt_succ_diag_r _) Hx).
  Qed.
End Ranks.

(** ** Runs *)
Section C106.
  Context {S V W : Type} {ES : Eqb S} {EV : Eqb V} {EW : Eqb W}.
  Variable L : libm.
  Notation F := (B64 L).
  Notation data := (dataset S V W F).
  Notation result := (result S V W b64).
  Variables (b : bool) (f : option (V -> W -> W -> option b64)) (ts : list (S * V * W)) (d : data).
  Hypothesis Hb : build (F:=F) b f ts = Ok d.
  Let R0 : ds_rep (F:=F) ts f d := build_rep _ _ _ _ Hb.
  Variables (a : alg F) (p : prior).
  Hypothesis Halg : a <> UnboundedSums.
  Hypothesis Few : (Z.of_nat (length (sources ts)) < 2 ^ 53)%Z.

  (** [r] is the result after exactly j rounds: a run with FixedIterator(j) returns it, and has done j rounds *)
  Definition after (j : nat) (r : result) : Prop :=
    exists clock fuel st lg o', run (F:=F) clock fuel (AObj a p (IFixed (Z.of_nat j) st) lg) d = (Ok r, o') /\ r_iterations r = Some j.
  (** no trust score is NaN *)
  Definition no_nan (r : result) : Prop := forall s x, trust_of r s = Some x -> is_nan x = false.
  (** the two results put the sources in the same order of trust, ties included *)
  Definition same_order (r r' : result) : Prop := forall s s' x x' y y', trust_of r s = Some x -> trust_of r s' = Some x' -> trust_of r' s = Some y -> trust_of r' s' = Some y' -> Bltb x x' = Bltb y y'.
  (** none of the rounds k-t+1 ... k changed the order of the sources *)
  Definition unchanged (t : Z) (k : nat) : Prop :=
    (t <= Z.of_nat k)%Z /\ forall j r r', 1 <= j <= k -> (Z.of_nat k - t < Z.of_nat j)%Z -> after (j - 1) r -> after j r' -> same_order r r'.
  (** the algorithm ends by itself after k rounds, however many are asked for *)
  Definition ends_itself (k : nat) : Prop := forall n clock fuel st lg r o', (Z.of_nat k <= n)%Z -> run (F:=F) clock fuel (AObj a p (IFixed n st) lg) d = (Ok r, o') -> r_iterations r = Some k.

  (* trust scores as a function *)
  Definition tr (x0 : vec F * vec F) (j : nat) (s : S) : F := nth (pos s (sources ts)) (fst (scores a d x0 j)) (n_ofZ 0).
  Lemma map_pos {A B : Type} {dec : Eqb A} (z : B) : forall (l : list A) (v : list B), NoDup l -> length v = length l -> map (fun s => nth (pos s l) v z) l = v.
  Proof.
    intros l v N E. apply nth_error_ext. intros i. rewrite nth_error_map. destruct (nth_error l i) as [s|] eqn:Es.
    - cbn. assert (P : pos s l = i) by (apply (proj1 (NoDup_nth_error l) N); [apply nth_error_Some; rewrite (nth_error_pos s l (nth_error_In _ _ Es)); discriminate|rewrite (nth_error_pos s l (nth_error_In _ _ Es)); congruence]).
      rewrite P. symmetry. apply nth_error_nth'. rewrite E. apply nth_error_Some. congruence.
    - cbn. symmetry. apply nth_error_None. rewrite E. now apply nth_error_None.
  Qed.
  Section Started.
    Variable x0 : vec F * vec F.
    Hypothesis NE : ts <> [].
    Hypothesis E0 : init (F:=F) a p d = Some x0.
    Let Sh := init_shaped (F:=F) ts f d R0 a p x0 E0.
    Lemma tr_vec j : map (tr x0 j) (sources ts) = fst (scores a d x0 j).
    Proof.
      unfold tr. apply map_pos; [apply distinct_NoDup|]. destruct (scores_shaped (F:=F) (fun _ => n_ofZ 0) ts f d R0 NE a x0 j Sh) as [Q _]. rewrite Q. apply (rep_ns _ _ _ R0).
    Qed.
    Lemma cmp_trust j : stops a d x0 j = false ->
      (cmp1 a d x0 j = fst (scores a d x0 j) /\ cmp2 a d x0 j = fst (scores a d x0 (Datatypes.S j))) \/ (cmp2 a d x0 j = fst (scores a d x0 j) /\ cmp1 a d x0 j = fst (scores a d x0 (Datatypes.S j))).
    Proof.
      intros Hs. pose proof (round_shaped (F:=F) ts f d R0 NE a _ (scores_shaped (F:=F) (fun _ => n_ofZ 0) ts f d R0 NE a x0 j Sh)) as Q.
      unfold stops in Hs. unfold cmp1, cmp2. cbn [scores]. destruct (round a d (scores a d x0 j)) as [|e|u v x'] eqn:E; [discriminate|contradiction|]. clear Q Hs.
      destruct (scores a d x0 j) as [t g]. destruct a; cbn [round] in E; try congruence; cbn [sums_upd avlog_upd inv_upd pooled_upd tf_upd crh_upd] in E.
      all: repeat match type of E with context [match ?q with Some _ => _ | None => _ end] => destruct q end; try discriminate E; injection E as <- <- <-; cbn [fst]; auto.
    Qed.
    Lemma after_char j r : after j r -> (forall i, i < j -> stops a d x0 i = false) /\ forall s, trust_of r s = if mem s (sources ts) then Some (tr x0 j s) else None.
    Proof.
      intros (clock & fuel & st & lg & o' & H & Hi). apply (run_cases (F:=F) b f ts d Hb) in H. destruct H as (_ & x0' & k & it' & E0' & El & x & Ef & ->).
      cbn in Hi. injection Hi as ->. rewrite E0 in E0'. injection E0' as <-. split; [intros i Hi; apply (loop_unbroken _ _ _ _ _ _ _ _ El); lia|].
      apply (final_ok (F:=F) a it' _ x Halg) in Ef. subst x. intros s. unfold trust_of, tdict. cbn [r_trust]. apply dget_map_fun.
    Qed.
    Lemma after_exists j : (forall i, i < j -> stops a d x0 i = false) -> exists r, after j r.
    Proof.
      intros H. assert (Ef : exists x, final (F:=F) a (IFixed (Z.of_nat j) j) (scores a d x0 j) = Ok x) by (destruct a; cbn [final]; try (eexists; reflexivity); congruence). destruct Ef as (x & Ef).
      assert (E : exists r o', run (F:=F) (fun _ => n_ofZ 0) (Datatypes.S j) (AObj a p (IFixed (Z.of_nat j) 0) None) d = (Ok r, o') /\ r_iterations r = Some j).
      { rewrite (run_char (F:=F) (fun _ => n_ofZ 0) ts f d R0 NE), E0. cbn [reset]. rewrite (fixed_loop _ _ _ j (Datatypes.S j) 0) by (lia || (intros; apply H; lia)). rewrite Ef. eexists. eexists. split; reflexivity. }
      destruct E as (r & o' & E & Er). exists r. exists (fun _ => n_ofZ 0), (Datatypes.S j), 0, None, o'. auto.
    Qed.
    Lemma order_char j r r' : after j r -> after (Datatypes.S j) r' -> (same_order r r' <-> forall s s', In s (sources ts) -> In s' (sources ts) -> Bltb (tr x0 j s) (tr x0 j s') = Bltb (tr x0 (Datatypes.S j) s) (tr x0 (Datatypes.S j) s')).
    Proof.
      intros H H'. apply after_char in H, H'. destruct H as (_ & T), H' as (_ & T'). unfold same_order. split.
      - intros Q s s' Hs Hs'. apply (Q s s'); rewrite ?T, ?T'; rewrite (proj2 (mem_In _ _)) by assumption; reflexivity.
      - intros Q s s' x x' y y'. rewrite !T, !T'. destruct (mem s (sources ts)) eqn:M; [|discriminate]. destruct (mem s' (sources ts)) eqn:M'; [|discriminate].
        intros [= <-] [= <-] [= <-] [= <-]. apply Q; now apply mem_In.
    Qed.
    Definition keeps (i : nat) : bool := forallb (fun s => forallb (fun s' => Bool.eqb (Bltb (tr x0 i s) (tr x0 i s')) (Bltb (tr x0 (Datatypes.S i) s) (tr x0 (Datatypes.S i) s'))) (sources ts)) (sources ts).
    Lemma keeps_true i : keeps i = true <-> forall s s', In s (sources ts) -> In s' (sources ts) -> Bltb (tr x0 i s) (tr x0 i s') = Bltb (tr x0 (Datatypes.S i) s) (tr x0 (Datatypes.S i) s').
    Proof.
      unfold keeps. rewrite forallb_forall. split.
      - intros H s s' Hs Hs'. specialize (H s Hs). rewrite forallb_forall in H. apply Bool.eqb_prop, H, Hs'.
      - intros H s Hs. apply forallb_forall. intros s' Hs'. rewrite (H s s' Hs Hs'). apply Bool.eqb_reflx.
    Qed.
    Lemma compare_keeps N : (forall j r, j <= N -> after j r -> no_nan r) -> forall t n c i, i < N -> (forall i', i' <= i -> stops a d x0 i' = false) ->
      compare (F:=F) (IOrd t n c) (cmp1 a d x0 i) (cmp2 a d x0 i) = (Ok tt, IOrd t (Datatypes.S n) (if keeps i then Datatypes.S c else 0)).
    Proof.
      intros NN t n c i Hi St. assert (G : forall j, j <= Datatypes.S i -> forall s, In s (sources ts) -> is_nan (tr x0 j s) = false).
      { intros j Hj s Hs. destruct (after_exists j) as (r & Hr); [intros; apply St; lia|]. pose proof (NN j r ltac:(lia) Hr s) as Q. apply after_char in Hr. destruct Hr as (_ & T). apply Q. rewrite T, (proj2 (mem_In _ _) Hs). reflexivity. }
      destruct (ranks_agree L _ (sources ts) Few (tr x0 i) (tr x0 (Datatypes.S i))) as (r1 & r2 & E1 & E2 & Ev); [now apply G; lia|now apply G; lia|].
      rewrite <- keeps_true in Ev.
      assert (Sy : forall q q' : vec F, vall_eq (F:=F) q q' = vall_eq (F:=F) q' q).
      { induction q as [|x q IH]; intros [|y q']; try reflexivity. change (Beqb x y && vall_eq (F:=F) q q' = Beqb y x && vall_eq (F:=F) q' q)%bool. rewrite IH. f_equal.
        change ((match Bcompare x y with Some Eq => true | _ => false end) = match Bcompare y x with Some Eq => true | _ => false end). rewrite (Bcompare_swap _ _ x y). destruct (Bcompare x y) as [[]|]; reflexivity. }
      assert (B : forall q, vall_eq (F:=F) r1 r2 = q -> keeps i = q) by (intros [] Q; [now apply Ev|]; destruct (keeps i); [|reflexivity]; rewrite (proj2 Ev eq_refl) in Q; discriminate).
      destruct (cmp_trust i (St i (Nat.le_refl i))) as [(-> & ->)|(-> & ->)]; rewrite <- !tr_vec; cbn [compare].
      - change (match get_ranking_vector (F:=F) (map (tr x0 i) (sources ts)), get_ranking_vector (F:=F) (map (tr x0 (Datatypes.S i)) (sources ts)) with Some r1, Some r2 => (Ok tt, IOrd t (Datatypes.S n) (if vall_eq (F:=F) r1 r2 then Datatypes.S c else 0)) | _, _ => (Err KeyErr, IOrd t (Datatypes.S n) c) end = (Ok tt, IOrd (F:=F) t (Datatypes.S n) (if keeps i then Datatypes.S c else 0))).
        rewrite E1, E2, (B _ eq_refl). reflexivity.
      - change (match get_ranking_vector (F:=F) (map (tr x0 (Datatypes.S i)) (sources ts)), get_ranking_vector (F:=F) (map (tr x0 i) (sources ts)) with Some r1, Some r2 => (Ok tt, IOrd t (Datatypes.S n) (if vall_eq (F:=F) r1 r2 then Datatypes.S c else 0)) | _, _ => (Err KeyErr, IOrd t (Datatypes.S n) c) end = (Ok tt, IOrd (F:=F) t (Datatypes.S n) (if keeps i then Datatypes.S c else 0))).
        rewrite E1, E2, Sy, (B _ eq_refl). reflexivity.
    Qed.
    Lemma quiet_unchanged t k : (forall i, i < k -> stops a d x0 i = false) -> (quiet keeps (Z.to_nat t) k <-> unchanged t k).
    Proof.
      intros St. unfold quiet, unchanged. split; intros (H1 & H2); (split; [lia|]).
      - intros j r r' Hj Ht A A'. destruct j as [|j]; [lia|]. replace (Datatypes.S j - 1) with j in A by lia. apply (order_char j r r' A A'). apply keeps_true, H2. lia.
      - intros i Hi. destruct (after_exists i) as (r & A); [intros; apply St; lia|]. destruct (after_exists (Datatypes.S i)) as (r' & A'); [intros; apply St; lia|].
        apply keeps_true, (order_char i r r' A A'). apply (H2 (Datatypes.S i)); [lia|lia| |exact A']. replace (Datatypes.S i - 1) with i by lia. exact A.
    Qed.
    Lemma ends_char k : (forall i, i < k -> stops a d x0 i = false) -> (stops a d x0 k = true <-> ends_itself k).
    Proof.
      intros St. split.
      - intros Hk n clock fuel st lg r o' Hn H. apply (run_cases (F:=F) b f ts d Hb) in H. destruct H as (_ & x0' & k' & it' & E0' & El & x & Ef & ->). rewrite E0 in E0'. injection E0' as <-.
        cbn [reset] in El. pose proof (loop_unbroken _ _ _ _ _ _ _ _ El) as (_ & U). pose proof (fixed_loop_end _ _ _ _ _ _ _ _ El) as (_ & Q). cbn. f_equal.
        destruct (Nat.lt_trichotomy k k') as [C|[C|C]]; [rewrite (U k ltac:(lia)) in Hk; discriminate|now symmetry|]. destruct Q as [Q|Q]; [rewrite (St k' C) in Q; discriminate|lia].
      - intros H. destruct (stops a d x0 k) eqn:Hk; [reflexivity|]. destruct (after_exists (Datatypes.S k)) as (r & clock & fuel & st & lg & o' & E & Er).
        { intros i Hi. destruct (Nat.eq_dec i k) as [->|]; [exact Hk|apply St; lia]. }
        specialize (H (Z.of_nat (Datatypes.S k)) clock fuel st lg r o' ltac:(lia) E). pose proof (eq_trans (eq_sym Er) H) as H9. injection H9 as H9. lia.
    Qed.
  End Started.

  (** C106. A run that returns after k rounds has results after every number of rounds up to k; if none of their trust scores is NaN, then k is
      the first number of rounds such that the last t rounds left the order of the sources as it was - or the algorithm ends by itself there. *)
  Theorem C106_ordinal_stops64 clock fuel t n c lg r o' k : run (F:=F) clock fuel (AObj a p (IOrd t n c) lg) d = (Ok r, o') -> r_iterations r = Some k ->
    (forall j, j <= k -> exists r', after j r') /\
    ((forall j r', j <= k -> after j r' -> no_nan r') ->
      (unchanged t k \/ ends_itself k) /\ forall k', k' < k -> ~ unchanged t k' /\ ~ ends_itself k').
  Proof.
    intros H Hk. apply (run_cases (F:=F) b f ts d Hb) in H. destruct H as (NE & x0 & k0 & it' & E0 & El & x & Ef & ->). cbn in Hk. injection Hk as ->. cbn [reset] in El.
    pose proof (loop_unbroken _ _ _ _ _ _ _ _ El) as (_ & U). split; [intros j Hj; apply (after_exists x0 NE E0); intros; apply U; lia|]. intros NN.
    pose proof (ord_loop (cmp1 a d x0) (cmp2 a d x0) (stops a d x0) (keeps x0) k t (fun n c i => compare_keeps x0 NE E0 k NN t n c i) fuel 0 0 0 ltac:(lia) ltac:(intros; lia) ltac:(intros; lia) ltac:(intros; lia)) as Q.
    rewrite El in Q. destruct (Q (Nat.le_refl k)) as (_ & Q1 & Q2). split.
    - destruct Q1 as [Q1|Q1]; [left; apply (quiet_unchanged x0 NE E0 t k); [intros; apply U; lia|exact Q1]|right; apply (ends_char x0 NE E0 k); [intros; apply U; lia|exact Q1]].
    - intros k' Hk'. destruct (Q2 k' ltac:(lia)) as (Q3 & Q4). split.
      + intros C. apply Q3, (quiet_unchanged x0 NE E0 t k'); [intros; apply U; lia|exact C].
      + intros C. apply (ends_char x0 NE E0 k') in C; [congruence|intros; apply U; lia].
  Qed.
  (** Conversely, a run whose iterator could stop after K rounds does not fail, as long as there is no NaN on the way. *)
  Theorem C106_ordinal_returns64 clock fuel t n c lg K : ts <> [] -> p <> BadPrior -> (forall j r', j <= K -> after j r' -> no_nan r') -> K < fuel ->
    unchanged t K \/ ends_itself K -> exists r, fst (run (F:=F) clock fuel (AObj a p (IOrd t n c) lg) d) = Ok r.
  Proof.
    intros NE Hp NN Hf HK. assert (E0 : exists x0, init (F:=F) a p d = Some x0) by (destruct a; cbn [init]; try (eexists; reflexivity); destruct p; cbn [prior_beliefs]; try congruence; eexists; reflexivity).
    destruct E0 as (x0 & E0). rewrite (run_char (F:=F) clock ts f d R0 NE), E0. cbn [reset].
    pose proof (ord_loop (cmp1 a d x0) (cmp2 a d x0) (stops a d x0) (keeps x0) K t (fun n c i => compare_keeps x0 NE E0 K NN t n c i) fuel 0 0 0 ltac:(lia) ltac:(intros; lia) ltac:(intros; lia) ltac:(intros; lia)) as Q.
    destruct (it_loop (cmp1 a d x0) (cmp2 a d x0) (stops a d x0) fuel (IOrd t 0 0) 0) as [[[[]|e] k] it'] eqn:El.
    - assert (Ef : exists x, final (F:=F) a it' (scores a d x0 k) = Ok x) by (destruct a; cbn [final]; try (eexists; reflexivity); congruence). destruct Ef as (x & ->). cbn. eauto.
    - exfalso. assert (Q' : forall k', k' <= K -> ~ quiet (keeps x0) (Z.to_nat t) k' /\ stops a d x0 k' = false) by (destruct Q as [(_ & Q)|Q]; intros k' Hk'; apply Q; lia). clear Q.
      destruct (Q' K (Nat.le_refl K)) as (Q1 & Q2). destruct HK as [HK|HK].
      + apply Q1, (quiet_unchanged x0 NE E0 t K); [intros i Hi; apply Q'; lia|exact HK].
      + apply (ends_char x0 NE E0 K) in HK; [congruence|intros i Hi; apply Q'; lia].
  Qed.
End C106.

(** Sums never produces a NaN, so there the claim holds without that condition, and Sums never ends by itself. *)
Section Sums.
  Context {S V W : Type} {ES : Eqb S} {EV : Eqb V} {EW : Eqb W}.
  Variable L : libm.
  Notation F := (B64 L).
  Variables (b : bool) (f : option (V -> W -> W -> option b64)) (ts : list (S * V * W)) (d : dataset S V W F).
  Hypothesis Hb : build (F:=F) b f ts = Ok d.
  Hypothesis Few : (Z.of_nat (length (sources ts)) < 2 ^ 53)%Z.
  Hypothesis FewC : (Z.of_nat (length (claims ts)) <= 2 ^ 53)%Z.
  Notation result := (result S V W b64).
  Lemma sums_no_nan p j r : after L d Sums p j r -> no_nan r.
  Proof.
    intros A s x Hx. destruct j as [|j].
    - pose proof A as (clock & fuel & st & lg & o' & H & Hi). apply (run_cases (F:=F) b f ts d Hb) in H. destruct H as (NE & x0 & k & it' & E0 & _).
      destruct (after_char L b f ts d Hb Sums p ltac:(discriminate) x0 E0 0 r A) as (_ & T). rewrite T in Hx. destruct (mem s (sources ts)); [|discriminate]. injection Hx as <-.
      unfold tr. cbn [scores]. cbn [init] in E0. destruct (prior_beliefs p d); [|discriminate]. injection E0 as <-. cbn [fst]. unfold vzeros, vfull.
      assert (G : forall n i, nth i (repeat (n_ofZ (n:=F) 0) n) (n_ofZ 0) = n_ofZ 0) by (induction n as [|n IH]; intros [|i]; cbn; auto). rewrite G. reflexivity.
    - destruct A as (clock & fuel & st & lg & o' & H & Hi). destruct (C34_sums_float L b f ts d Hb ltac:(lia) FewC clock fuel p _ lg r o' _ H Hi ltac:(discriminate)) as (N & _).
      destruct (N s x Hx) as (Fq & _). destruct x; try discriminate Fq; reflexivity.
  Qed.
  Theorem C106_sums64 p clock fuel t n c lg r o' : run (F:=F) clock fuel (AObj Sums p (IOrd t n c) lg) d = (Ok r, o') ->
    exists k, r_iterations r = Some k /\ unchanged L d Sums p t k /\ forall k', k' < k -> ~ unchanged L d Sums p t k'.
  Proof.
    intros H. pose proof H as H0. apply (run_cases (F:=F) b f ts d Hb) in H0. destruct H0 as (NE & x0 & k & it' & E0 & El & x & Ef & Er). assert (Hk : r_iterations r = Some k) by (rewrite Er; reflexivity).
    exists k. split; [exact Hk|]. destruct (C106_ordinal_stops64 L b f ts d Hb Sums p ltac:(discriminate) Few clock fuel t n c lg r o' k H Hk) as (Ex & Q).
    destruct (Q (fun j r' _ A => sums_no_nan p j r' A)) as (Q1 & Q2). split; [|intros k' Hk'; now apply Q2]. destruct Q1 as [Q1|Q1]; [exact Q1|exfalso].
    destruct (C28_fixed_returns (F:=F) b f ts d Hb clock (Datatypes.S (Datatypes.S k)) Sums p (Z.of_nat (Datatypes.S k)) 0 None NE) as (r1 & Hr1); [discriminate| |lia|].
    { intros ->. cbn in E0. discriminate. }
    destruct (run (F:=F) clock (Datatypes.S (Datatypes.S k)) (AObj Sums p (IFixed (Z.of_nat (Datatypes.S k)) 0) None) d) as [q o1] eqn:E. cbn in Hr1. subst q.
    destruct (C28_fixed (F:=F) b f ts d Hb clock _ Sums p _ 0 None r1 o1 E) as (k1 & Ek & _ & Em & _). cbn in Em. specialize (Q1 (Z.of_nat (Datatypes.S k)) clock _ 0 None r1 o1 ltac:(lia) E).
    pose proof (eq_trans (eq_sym Ek) Q1) as H9. injection H9 as H9. lia.
  Qed.
End Sums.

(** Source 1 makes two claims, source 2 one: the first round separates them, and the next three change nothing, so threshold 3 means 4 rounds. *)
Module OrdStop64Examples.
  Notation F := (B64 FloatExamples.lm).
  Definition ts0 : list (nat * nat * nat) := [(1, 0, 5); (1, 1, 7); (2, 0, 6)].
  Definition check : bool := match build (F:=F) false None ts0 with
    | Ok d => match fst (run (F:=F) (fun _ => ofZ64 0) 10 (AObj Sums FIXED (IOrd 3 0 0) None) d) with Ok r => beq (r_iterations r) (Some 4) | Err _ => false end
    | Err _ => false end.
  Example checked : check = true. Proof. vm_cast_no_check (eq_refl true). Qed.
  Example four : exists d r, build (F:=F) false None ts0 = Ok d /\ after FloatExamples.lm d Sums FIXED 4 r /\
    unchanged FloatExamples.lm d Sums FIXED 3 4 /\ ~ unchanged FloatExamples.lm d Sums FIXED 3 3.
  Proof.
    destruct (FloatExamples.strict_builds64 ts0) as [d E]; [unfold ts0, sv_pairs; cbn; repeat constructor; cbn; intuition congruence|].
    pose proof checked as C. unfold check in C. rewrite E in C.
    destruct (run (F:=F) (fun _ => ofZ64 0) 10 (AObj Sums FIXED (IOrd 3 0 0) None) d) as [[r|e] o'] eqn:Er; cbn [fst] in C; [|discriminate C]. apply (proj1 (beq_true _ _)) in C.
    destruct (C106_sums64 FloatExamples.lm false None ts0 d E ltac:(cbn; lia) ltac:(cbn; lia) FIXED _ _ _ _ _ _ _ _ Er) as (k & Ek & Q1 & Q2). rewrite C in Ek. injection Ek as <-.
    destruct (C106_ordinal_stops64 FloatExamples.lm false None ts0 d E Sums FIXED ltac:(discriminate) ltac:(cbn; lia) _ _ _ _ _ _ _ _ _ Er C) as (Ex & _).
    destruct (Ex 4 (Nat.le_refl 4)) as (r4 & A). exists d, r4. split; [exact E|]. split; [exact A|]. split; [exact Q1|]. apply Q2. lia.
  Qed.
End OrdStop64Examples.
