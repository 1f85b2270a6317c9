(** Facts about get_ranking_vector, for any number type whose comparisons are a total preorder on the entries. *)
From Verif Require Import Base Num Iterators.
From Coq Require Import Permutation Sorted.

(** [good] numbers (not NaN): [n_ltb] is a strict weak order and [n_eqb] its equivalence. *)
Class OrdNum (F : Num) (good : F -> Prop) := {
  on_irrefl : forall x, good x -> n_ltb x x = false;
  on_trans : forall x y z, good x -> good y -> good z -> n_ltb x y = true -> n_ltb y z = true -> n_ltb x z = true;
  on_eqb : forall x y, good x -> good y -> n_eqb x y = negb (n_ltb x y) && negb (n_ltb y x);
  on_eq_lt : forall x y z, good x -> good y -> good z -> n_eqb x y = true -> n_ltb y z = n_ltb x z;
  on_lt_eq : forall x y z, good x -> good y -> good z -> n_eqb x y = true -> n_ltb z y = n_ltb z x
}.

Section Rank.
  Context {F : Num} {good : F -> Prop} {ON : OrdNum F good}.
  Implicit Types (x y z : F) (l v : list F).

  (** [r] is the number of distinct values of [v] smaller than [x]: some list of [r] pairwise different values
      consists of values of [v] smaller than [x] and represents all of them. *)
  Definition distinct_below v x (r : nat) : Prop :=
    exists ds, length ds = r /\ ForallOrdPairs (fun a b => n_eqb a b = false) ds /\
      (forall y, In y ds -> In y v /\ n_ltb y x = true) /\
      (forall y, In y v -> n_ltb y x = true -> exists z, In z ds /\ n_eqb z y = true).

  Notation allgood l := (forall x, In x l -> good x).

  Lemma eqb_refl x : good x -> n_eqb x x = true.
  Proof. intros G. rewrite (on_eqb x x G G). now rewrite (on_irrefl x G). Qed.
  Lemma eqb_sym x y : good x -> good y -> n_eqb x y = n_eqb y x.
  Proof. intros Gx Gy. rewrite (on_eqb x y Gx Gy), (on_eqb y x Gy Gx). apply andb_comm. Qed.
  Lemma eqb_trans x y z : good x -> good y -> good z -> n_eqb x y = true -> n_eqb y z = true -> n_eqb x z = true.
  Proof.
    intros Gx Gy Gz H1 H2. rewrite (on_eqb x z Gx Gz).
    rewrite <- (on_eq_lt x y z Gx Gy Gz H1). rewrite <- (on_lt_eq x y z Gx Gy Gz H1).
    now rewrite <- (on_eqb y z Gy Gz).
  Qed.
  Lemma ltb_not_eqb x y : good x -> good y -> n_ltb x y = true -> n_eqb x y = false.
  Proof. intros Gx Gy H. rewrite (on_eqb x y Gx Gy), H. reflexivity. Qed.
  Lemma ltb_asym x y : good x -> good y -> n_ltb x y = true -> n_ltb y x = false.
  Proof.
    intros Gx Gy H. destruct (n_ltb y x) eqn:E; [|reflexivity].
    rewrite <- (on_irrefl x Gx). symmetry. now apply on_trans with y.
  Qed.
  (* not (y < x), not (z < y) -> not (z < x) *)
  Lemma nlt_trans x y z : good x -> good y -> good z -> n_ltb y x = false -> n_ltb z y = false -> n_ltb z x = false.
  Proof.
    intros Gx Gy Gz H1 H2. destruct (n_ltb x y) eqn:E1.
    - destruct (n_ltb z x) eqn:E; [|reflexivity]. assert (n_ltb z y = true) by (now apply on_trans with x). congruence.
    - assert (Q : n_eqb y x = true) by (rewrite (on_eqb y x Gy Gx), H1, E1; reflexivity).
      rewrite (on_lt_eq y x z Gy Gx Gz Q). exact H2.
  Qed.

  (** pigeonhole modulo [n_eqb] *)
  Lemma pigeon ds ds' : allgood ds -> allgood ds' -> ForallOrdPairs (fun a b => n_eqb a b = false) ds ->
    (forall y, In y ds -> exists z, In z ds' /\ n_eqb z y = true) -> length ds <= length ds'.
  Proof.
    revert ds'. induction ds as [|d ds IH]; intros ds' G G' P H; cbn; [lia|].
    destruct (H d (or_introl eq_refl)) as (z & Hz & Ez). apply in_split in Hz. destruct Hz as (l1 & l2 & ->).
    rewrite app_length. cbn. inversion P as [|? ? P1 P2]; subst. rewrite Nat.add_succ_r, <- app_length.
    apply le_n_S, IH; auto.
    - intros x Hx. apply G. now right.
    - intros x Hx. apply G'. apply in_app_iff in Hx. apply in_app_iff. cbn. tauto.
    - intros y Hy. destruct (H y (or_intror Hy)) as (z' & Hz' & Ez'). exists z'. split; [|exact Ez'].
      apply in_app_iff in Hz'. cbn in Hz'. destruct Hz' as [Hz'|[<-|Hz']]; [apply in_app_iff; auto| |apply in_app_iff; auto].
      exfalso. rewrite Forall_forall in P1. specialize (P1 y Hy).
      assert (Q : n_eqb d y = true).
      { apply eqb_trans with z; auto.
        - apply G. now left.
        - apply G'. apply in_app_iff. cbn. auto.
        - apply G. now right.
        - rewrite eqb_sym; auto; [apply G; now left|apply G'; apply in_app_iff; cbn; auto]. }
      congruence.
  Qed.
  Lemma distinct_below_unique v x r r' : allgood v -> distinct_below v x r -> distinct_below v x r' -> r = r'.
  Proof.
    intros G (ds & <- & P & A & B) (ds' & <- & P' & A' & B').
    assert (forall y, In y ds -> good y) by (intros y Hy; apply G, A, Hy).
    assert (forall y, In y ds' -> good y) by (intros y Hy; apply G, A', Hy).
    apply Nat.le_antisymm; apply pigeon; auto.
    - intros y Hy. apply B'; apply A, Hy.
    - intros y Hy. apply B; apply A', Hy.
  Qed.
  (** same elements, same ranks *)
  Lemma distinct_below_ext v v' x r : (forall y, In y v <-> In y v') -> distinct_below v x r -> distinct_below v' x r.
  Proof.
    intros E (ds & L & P & A & B). exists ds. repeat split; auto.
    - apply E. now apply A.
    - now apply A.
    - intros y Hy. apply B, E, Hy.
  Qed.
  Lemma distinct_below_eqb v x x' r : allgood v -> good x -> good x' -> n_eqb x x' = true ->
    distinct_below v x r -> distinct_below v x' r.
  Proof.
    intros G Gx Gx' E (ds & L & P & A & B). exists ds. repeat split; auto.
    - now apply A.
    - rewrite (on_lt_eq x x' y) by (auto; apply G, A; auto). now apply A.
    - intros y Hy Hlt. apply B; auto. now rewrite <- (on_lt_eq x x' y) by auto.
  Qed.
  Lemma distinct_below_lt v x y r r' : allgood v -> In x v -> In y v -> n_ltb x y = true ->
    distinct_below v x r -> distinct_below v y r' -> r < r'.
  Proof.
    intros G Hx Hy Hlt (ds & <- & P & A & B) (ds' & <- & P' & A' & B').
    apply (pigeon (x :: ds) ds').
    - intros z [<-|Hz]; [now apply G|]. apply G, A, Hz.
    - intros z Hz. apply G, A', Hz.
    - constructor; [|exact P]. apply Forall_forall. intros z Hz. destruct (A z Hz) as [Hzv Hzx].
      rewrite eqb_sym by auto. apply ltb_not_eqb; auto.
    - intros z [<-|Hz]; [now apply B'|]. apply B'; [now apply A|]. apply on_trans with x; auto; [apply G, A, Hz|now apply A].
  Qed.
  Lemma distinct_below_map (h : F -> F) v x r : allgood v -> good x -> (forall y, In y v -> good (h y)) -> good (h x) ->
    (forall y z, In y (x :: v) -> In z (x :: v) -> n_ltb (h y) (h z) = n_ltb y z) ->
    distinct_below v x r -> distinct_below (map h v) (h x) r.
  Proof.
    intros G Gx Gh Ghx M (ds & L & P & A & B).
    assert (Me : forall y z, In y v -> In z v -> n_eqb (h y) (h z) = n_eqb y z).
    { intros y z Hy Hz. rewrite (on_eqb (h y) (h z)), (on_eqb y z), !M; auto; now right. }
    exists (map h ds). split; [now rewrite map_length|]. split; [|split].
    - clear L B. induction P as [|d ds P1 P2 IH]; cbn; constructor.
      + rewrite Forall_forall in *. intros z Hz. apply in_map_iff in Hz. destruct Hz as (z' & <- & Hz').
        rewrite Me; [auto|apply A; now left|apply A; now right].
      + apply IH. intros z Hz. apply A. now right.
    - intros y Hy. apply in_map_iff in Hy. destruct Hy as (y' & <- & Hy'). destruct (A y' Hy') as [H1 H2]. split.
      + now apply in_map.
      + rewrite M; auto; cbn; auto.
    - intros y Hy Hlt. apply in_map_iff in Hy. destruct Hy as (y' & <- & Hy'). rewrite M in Hlt by (cbn; auto).
      destruct (B y' Hy' Hlt) as (z & Hz & Ez). exists (h z). split; [now apply in_map|]. rewrite Me; auto. now apply A.
  Qed.

  (** ** The sort *)
  Lemma sort_insert_In x l y : In y (sort_insert x l) <-> y = x \/ In y l.
  Proof.
    induction l as [|a t IH]; cbn; [intuition|]. destruct (n_ltb a x); cbn; [rewrite IH|]; intuition congruence.
  Qed.
  Lemma vsort_In v y : In y (vsort v) <-> In y v.
  Proof.
    unfold vsort. induction v as [|a t IH]; cbn; [tauto|]. rewrite sort_insert_In, IH. intuition congruence.
  Qed.
  (* ascending: no later element is smaller *)
  Notation asc := (StronglySorted (fun a b => n_ltb b a = false)).
  Lemma sort_insert_asc x l : good x -> allgood l -> asc l -> asc (sort_insert x l).
  Proof.
    intros Gx. induction l as [|a t IH]; intros G H; cbn.
    - repeat constructor.
    - inversion H as [|? ? H1 H2]; subst. rewrite Forall_forall in H2. destruct (n_ltb a x) eqn:E.
      + constructor; [apply IH; auto; intros; apply G; now right|]. apply Forall_forall. intros z Hz. apply sort_insert_In in Hz.
        destruct Hz as [->|Hz]; [|auto]. apply ltb_asym; auto. apply G. now left.
      + constructor; [exact H|]. apply Forall_forall. intros z [<-|Hz]; [exact E|].
        apply (nlt_trans x a z); auto; [apply G; now left|apply G; now right].
  Qed.
  Lemma vsort_asc v : allgood v -> asc (vsort v).
  Proof.
    unfold vsort. induction v as [|a t IH]; cbn; intros G; [constructor|].
    apply sort_insert_asc; [apply G; now left| |apply IH; intros; apply G; now right].
    intros x Hx. apply G. right. now apply vsort_In.
  Qed.

  (** ** The dictionary of ranks *)
  Lemma fget_fset (d : list (F * Z)) k r x : good k -> good x -> (forall k', In k' (map fst d) -> good k') ->
    fget (fset d k r) x = if n_eqb x k then Some r else fget d x.
  Proof.
    intros Gk Gx. induction d as [|[k' r'] t IH]; cbn; intros Gd; [reflexivity|].
    destruct (n_eqb k k') eqn:E; cbn.
    - destruct (n_eqb x k') eqn:E2.
      + assert (Q : n_eqb x k = true).
        { apply eqb_trans with k'; auto. rewrite eqb_sym; auto. }
        now rewrite Q.
      + assert (Q : n_eqb x k = false).
        { destruct (n_eqb x k) eqn:E3; [|reflexivity]. rewrite <- E2. symmetry. apply eqb_trans with k; auto. }
        now rewrite Q.
    - destruct (n_eqb x k') eqn:E2.
      + assert (Q : n_eqb x k = false).
        { destruct (n_eqb x k) eqn:E3; [|reflexivity]. rewrite <- E. symmetry. apply eqb_trans with x; auto.
          rewrite eqb_sym; auto. }
        now rewrite Q.
      + apply IH. auto.
  Qed.
  Lemma fset_keys (d : list (F * Z)) k r k' : In k' (map fst (fset d k r)) -> k' = k \/ In k' (map fst d).
  Proof.
    induction d as [|[k0 r0] t IH]; cbn; [intuition|]. destruct (n_eqb k k0); cbn; intuition.
  Qed.

  (* invariant of the loop after the ascending prefix [p] *)
  Definition rank_inv (p : list F) (rank : Z) (m : list (F * Z)) : Prop :=
    (forall k, In k (map fst m) -> good k) /\
    (forall x, In x p -> exists r, fget m x = Some (Z.of_nat r) /\ distinct_below p x r) /\
    (p = [] -> rank = 0%Z) /\
    (forall q last, p = q ++ [last] -> exists r, rank = Z.of_nat r /\ distinct_below p last r).

  Lemma asc_app_last (q : list F) last t : asc ((q ++ [last]) ++ t) -> forall x, In x t -> n_ltb x last = false.
  Proof.
    intros H x Hx. rewrite <- app_assoc in H. induction q as [|a q IH].
    - cbn in H. inversion H as [|? ? H1 H2]. rewrite Forall_forall in H2. now apply H2.
    - cbn in H. inversion H. auto.
  Qed.
  Lemma asc_before (p t : list F) : asc (p ++ t) -> forall a x, In a p -> In x t -> n_ltb x a = false.
  Proof.
    induction p as [|b p IH]; intros H a x Ha Hx; [destruct Ha|]. inversion H as [|? ? H1 H2]; subst.
    rewrite Forall_forall in H2. destruct Ha as [<-|Ha]; [apply H2, in_app_iff; now right|eauto].
  Qed.

  Lemma rank_loop_inv (t p : list F) rank m : allgood (p ++ t) -> asc (p ++ t) -> rank_inv p rank m ->
    exists rank', rank_inv (p ++ t)
      rank' (rank_loop (match rev p with [] => None | y :: _ => Some y end) t rank m).
  Proof.
    revert p rank m. induction t as [|sc t IH]; intros p rank m G S I.
    - rewrite app_nil_r in *. exists rank. exact I.
    - set (rank' := match (match rev p with [] => None | y :: _ => Some y end) with
                    | Some p0 => if n_ltb p0 sc then (rank + 1)%Z else rank | None => rank end).
      assert (I' : rank_inv (p ++ [sc]) rank' (fset m sc rank')).
      { destruct I as (I1 & I2 & I3 & I4).
        assert (Gp : allgood p) by (intros x Hx; apply G, in_app_iff; now left).
        assert (Gs : good sc) by (apply G, in_app_iff; cbn; auto).
        assert (R : exists r, rank' = Z.of_nat r /\ distinct_below (p ++ [sc]) sc r).
        { destruct (rev p) as [|last q'] eqn:Er.
          - assert (p = []) by (rewrite <- (rev_involutive p), Er; reflexivity). subst p. unfold rank'.
            exists 0. split; [now apply I3|]. exists []. repeat split; try constructor; cbn; try tauto.
            intros y [<-|[]] Hl. rewrite (on_irrefl sc Gs) in Hl. discriminate.
          - assert (Ep : p = rev q' ++ [last]) by (rewrite <- (rev_involutive p), Er; reflexivity).
            destruct (I4 _ _ Ep) as (r & Hr & ds & L & P & A & B).
            assert (Hlast : In last p) by (rewrite Ep; apply in_app_iff; cbn; auto).
            assert (Hge : forall x, In x p -> n_ltb last x = false).
            { intros x Hx. rewrite Ep in Hx. apply in_app_iff in Hx. destruct Hx as [Hx|[<-|[]]]; [|apply on_irrefl, Gp, Hlast].
              assert (S' : asc (rev q' ++ (last :: sc :: t))).
              { rewrite Ep, <- app_assoc in S. exact S. }
              apply (asc_before _ _ S'); cbn; auto. }
            assert (Hsc : n_ltb sc last = false).
            { apply (asc_before p (sc :: t) S); cbn; auto. }
            unfold rank'. destruct (n_ltb last sc) eqn:Els.
            + exists (Datatypes.S r). split; [lia|]. exists (last :: ds). split; [cbn; lia|]. split; [|split].
              * constructor; [|exact P]. apply Forall_forall. intros z Hz. destruct (A z Hz) as [Az1 Az2].
                rewrite eqb_sym by auto. apply ltb_not_eqb; auto.
              * intros y [<-|Hy]; [split; [apply in_app_iff; auto|exact Els]|]. destruct (A y Hy) as [A1 A2].
                split; [apply in_app_iff; auto|]. apply on_trans with last; auto.
              * intros y Hy Hlt. apply in_app_iff in Hy. destruct Hy as [Hy|[<-|[]]].
                -- destruct (n_ltb y last) eqn:E.
                   ++ destruct (B y Hy E) as (z & Hz & Ez). exists z. cbn. auto.
                   ++ exists last. split; [now left|]. rewrite (on_eqb last y) by auto. rewrite (Hge y Hy), E. reflexivity.
                -- rewrite (on_irrefl sc Gs) in Hlt. discriminate.
            + exists r. split; [exact Hr|].
              assert (Q : n_eqb last sc = true) by (rewrite (on_eqb last sc) by auto; now rewrite Els, Hsc).
              exists ds. split; [exact L|]. split; [exact P|]. split.
              * intros y Hy. destruct (A y Hy) as [A1 A2]. split; [apply in_app_iff; auto|].
                rewrite (on_lt_eq last sc y) by auto. exact A2.
              * intros y Hy Hlt. apply in_app_iff in Hy. destruct Hy as [Hy|[<-|[]]].
                -- apply B; auto. rewrite <- (on_lt_eq last sc y) by auto. exact Hlt.
                -- rewrite (on_irrefl sc Gs) in Hlt. discriminate. }
        destruct R as (r & Hr & D). split; [|split; [|split]].
        - intros k Hk. apply fset_keys in Hk. destruct Hk as [->|Hk]; auto.
        - intros x Hx.
          assert (Gx : good x) by (apply in_app_iff in Hx; cbn in Hx; destruct Hx as [Hx|[<-|[]]]; auto).
          rewrite fget_fset by auto. destruct (n_eqb x sc) eqn:E.
          + exists r. split; [now rewrite Hr|]. apply distinct_below_eqb with sc; auto.
            * intros y Hy. apply in_app_iff in Hy. cbn in Hy. destruct Hy as [Hy|[<-|[]]]; auto.
            * now rewrite eqb_sym.
          + apply in_app_iff in Hx. destruct Hx as [Hx|[<-|[]]]; [|rewrite eqb_refl in E by auto; discriminate].
            destruct (I2 x Hx) as (r0 & H0 & ds & L & P & A & B). exists r0. split; [exact H0|].
            exists ds. split; [exact L|]. split; [exact P|]. split.
            * intros y Hy. destruct (A y Hy). split; [apply in_app_iff; auto|assumption].
            * intros y Hy Hlt. apply in_app_iff in Hy. destruct Hy as [Hy|[<-|[]]]; [auto|].
              rewrite (asc_before p (sc :: t) S x sc Hx (or_introl eq_refl)) in Hlt. discriminate.
        - intros E. destruct p; discriminate.
        - intros q last E. apply app_inj_tail in E. destruct E as [<- <-]. eauto. }
      specialize (IH (p ++ [sc]) rank' (fset m sc rank')). rewrite <- app_assoc in IH.
      specialize (IH G S I'). rewrite rev_app_distr in IH. exact IH.
  Qed.

  Theorem ranking_spec v : allgood v ->
    exists rs, get_ranking_vector v = Some (map (fun r => n_ofZ (Z.of_nat r)) rs) /\
      length rs = length v /\
      forall i x r, nth_error v i = Some x -> nth_error rs i = Some r -> distinct_below v x r.
  Proof.
    intros G. unfold get_ranking_vector.
    destruct (rank_loop_inv (vsort v) [] 0%Z []) as (rank' & I1 & I2 & _).
    - intros x Hx. apply G, vsort_In, Hx.
    - now apply vsort_asc.
    - repeat split; cbn; try tauto. intros q last E. destruct q; discriminate.
    - cbn [rev app] in *. set (m := rank_loop None (vsort v) 0%Z []) in *. clearbody m.
      assert (H : forall w, (forall x, In x w -> In x v) ->
         exists rs, rank_lookup m w = Some (map (fun r => n_ofZ (Z.of_nat r)) rs) /\ length rs = length w /\
           forall i x r, nth_error w i = Some x -> nth_error rs i = Some r -> distinct_below v x r).
      { induction w as [|x w IH]; intros Hw.
        - exists []. repeat split. intros i x r H. destruct i; discriminate.
        - destruct IH as (rs & E & L & D); [intros; apply Hw; now right|].
          destruct (I2 x) as (r & Hr & Dr); [apply vsort_In, Hw; now left|].
          exists (r :: rs). cbn. rewrite Hr, E. repeat split; [now rewrite L|]. intros i y r' Hy Hr'. destruct i as [|i]; cbn in *.
          + injection Hy as <-. injection Hr' as <-. apply distinct_below_ext with (vsort v); [apply vsort_In|exact Dr].
          + eauto. }
      apply H. auto.
  Qed.
End Rank.

(** Exact numbers: everything but NaN is ordered. *)
From Coq Require Import Reals Lra.
#[global] Instance XR_Ord : OrdNum XR (fun x => x <> NaN).
Proof.
  split; cbn.
  - intros [r| | |] H; cbn; try reflexivity. apply rltb_false. lra.
  - intros [a| | |] [b| | |] [c| | |] Ha Hb Hc; cbn; try congruence; try contradiction.
    destruct (rltb_spec a b), (rltb_spec b c), (rltb_spec a c); try congruence; lra.
  - intros [a| | |] [b| | |] Ha Hb; cbn; try congruence; try contradiction.
    destruct (reqb_spec a b), (rltb_spec a b), (rltb_spec b a); try reflexivity; lra.
  - intros [a| | |] [b| | |] [c| | |] Ha Hb Hc; cbn; try congruence; try contradiction.
    destruct (reqb_spec a b); [now subst|discriminate].
  - intros [a| | |] [b| | |] [c| | |] Ha Hb Hc; cbn; try congruence; try contradiction.
    destruct (reqb_spec a b); [now subst|discriminate].
Qed.
