(** Property theorems about iterators: C21-C25. *)
From Coq Require Import Reals Lra Permutation.
From Verif Require Import Base Num Iterators Driver Ranking Distance.

(** [drive a b fuel it 0]: while not it.finished(): it.compare(a k, b k), for k = 0, 1, ...
    Result: outcome (normal or exception), number of comparisons made, final iterator. *)
Definition drive {F : Num} (a b : nat -> vec F) (fuel : nat) (it : iterator F) := it_loop a b (fun _ => false) fuel it 0.

(** Everything a user can do with an iterator object: compare, ask finished (no effect), reset. *)
Inductive itop (F : Num) := OCompare (u v : vec F) | OReset.
Arguments OCompare {F}. Arguments OReset {F}.
Definition exec1 {F : Num} (it : iterator F) (o : itop F) : iterator F :=
  match o with OCompare u v => snd (compare it u v) | OReset => reset it end.
Definition exec {F : Num} (it : iterator F) (os : list (itop F)) : iterator F := fold_left exec1 os it.
Lemma exec_reset {F : Num} (it : iterator F) os : reset (exec it os) = reset it.
Proof.
  unfold exec. revert it. induction os as [|o os IH]; intros it; [reflexivity|]. cbn [fold_left]. rewrite IH.
  destruct o; cbn [exec1]; [apply compare_reset|]. now destruct it.
Qed.

(** C21.  FixedIterator(n): exactly n comparisons, whatever is compared, also after arbitrary use and reset(). *)
Theorem C21_fixed {F : Num} (limit : option Z) (a b : nat -> vec F) :
  (forall n, limit = Some n -> (n < 0)%Z -> @mk_fixed F limit = Err NegativeLimitError) /\
  (forall n, n = match limit with Some n => n | None => 20%Z end -> (0 <= n)%Z ->
     exists it, mk_fixed limit = Ok it /\
       forall used fuel, Z.to_nat n < fuel ->
         let '((r, rounds), it') := drive a b fuel (reset (exec it used)) in
         r = Ok tt /\ rounds = Z.to_nat n /\ it_count it' = Z.to_nat n).
Proof.
  split.
  - intros n -> Hn. cbn. destruct (Z.ltb_spec n 0); [reflexivity|lia].
  - intros n En Hn. exists (IFixed n 0). split.
    + destruct limit; subst; cbn; [|reflexivity]. destruct (Z.ltb_spec z 0); [lia|reflexivity].
    + intros used fuel Hf. rewrite exec_reset. cbn [reset]. unfold drive.
      rewrite (it_loop_fixed a b (fun _ => false) fuel n 0 0 (Z.to_nat n)).
      * cbn. rewrite Nat.sub_0_r. auto.
      * lia.
      * intros j Hj. split; [reflexivity|]. lia.
      * right. lia.
      * lia.
Qed.

(** C22.  ConvergenceIterator(measure, threshold, limit), also after arbitrary use and reset(): [dist k] is the distance
    of the k-th comparison. *)
Theorem C22_converges {F : Num} m thr lim (a b : nat -> vec F) (dist : nat -> F) used fuel stop :
  (forall k, get_distance m (a k) (b k) = Ok (dist k)) ->
  (Z.of_nat stop < lim)%Z -> (forall j, j < stop -> n_ltb (dist j) thr = false) -> n_ltb (dist stop) thr = true ->
  Z.to_nat lim < fuel ->
  let '((r, rounds), it') := drive a b fuel (reset (exec (mk_conv m (Some thr) (Some lim)) used)) in
  r = Ok tt /\ rounds = S stop /\ it_count it' = S stop.
Proof.
  intros Hd Hl Hno Hyes Hf. rewrite exec_reset. cbn [mk_conv reset]. unfold drive.
  rewrite (it_loop_conv_stop a b _ m thr lim fuel stop dist) by (auto; lia). auto.
Qed.
Theorem C22_fails {F : Num} m thr lim (a b : nat -> vec F) (dist : nat -> F) used fuel :
  (forall k, get_distance m (a k) (b k) = Ok (dist k)) ->
  (forall j, (Z.of_nat j < lim)%Z -> n_ltb (dist j) thr = false) ->
  Z.to_nat lim < fuel ->
  fst (drive a b fuel (reset (exec (mk_conv m (Some thr) (Some lim)) used))) = (Err ConvergenceError, Z.to_nat lim).
Proof.
  intros Hd Hno Hf. rewrite exec_reset. cbn [mk_conv reset]. unfold drive.
  now apply (it_loop_conv_fail a b _ m thr lim fuel dist).
Qed.
(** In every case it stops, after at most [max 0 limit] comparisons. *)
Theorem C22_bounded {F : Num} m thr lim (a b : nat -> vec F) used fuel : Z.to_nat lim < fuel ->
  let '((r, rounds), it') := drive a b fuel (reset (exec (mk_conv m (Some thr) (Some lim)) used)) in
  r <> Err OutOfFuel /\ (Z.of_nat rounds <= Z.max 0 lim)%Z.
Proof.
  intros Hf. rewrite exec_reset. cbn [mk_conv reset]. unfold drive.
  apply (it_loop_conv_bound a b _ m thr lim fuel 0 None); lia.
Qed.
(** Defaults: threshold 0.0001, limit 10^6. *)
Theorem C22_defaults {F : Num} m : @mk_conv F m None None = mk_conv m (Some (lit 1 10000)) (Some 1000000%Z).
Proof. reflexivity. Qed.

(** C23.  Distances between finite vectors of one length. *)
Section Distances.
  Local Open Scope R_scope.
  Definition finite (u : list R) : vec XR := map Fin u.
  Definition coords (u : list R) : list nat := seq 0 (length u).
  Notation "u # i" := (nth i u 0) (at level 9).
  Lemma finite_fv u n : length u = n -> finite u = map (fun i => Fin (u # i)) (seq 0 n).
  Proof. intros <-. unfold finite. rewrite <- (map_nth_error_seq u 0) at 1. now rewrite map_map. Qed.

  (** The exact values. *)
  Theorem C23_values u v : length u = length v ->
    get_distance L1 (finite u) (finite v) = Ok (Fin (rsum (fun i => Rabs (u#i - v#i)) (coords u))) /\
    get_distance L2 (finite u) (finite v) = Ok (Fin (sqrt (rsum (fun i => (u#i - v#i) * (u#i - v#i)) (coords u)))) /\
    (u <> [] -> get_distance L_INF (finite u) (finite v) = Ok (Fin (rmax (fun i => Rabs (u#i - v#i)) (coords u)))) /\
    get_distance COSINE (finite u) (finite v) =
      Ok (if (reqb (rsum (fun i => u#i * u#i) (coords u)) 0 || reqb (rsum (fun i => v#i * v#i) (coords u)) 0)%bool then Fin 1
          else Fin (Rmax 0 (Rmin (1 - rsum (fun i => u#i * v#i) (coords u) /
                 (sqrt (rsum (fun i => u#i * u#i) (coords u)) * sqrt (rsum (fun i => v#i * v#i) (coords u)))) 1))).
  Proof.
    intros E. unfold coords. rewrite (finite_fv u (length u)), (finite_fv v (length u)) by auto.
    split; [apply distance_l1|]. split; [apply distance_l2|]. split; [|apply distance_cos].
    intros H. apply distance_linf. destruct u; [congruence|discriminate].
  Qed.

  Definition metric3 (m : measure) (u v : list R) : Prop := m = L1 \/ m = L2 \/ (m = L_INF /\ u <> []).
  Lemma coords_ext (u v : list R) : length u = length v -> (forall i, In i (coords u) -> u#i = v#i) -> u = v.
  Proof.
    intros E H. apply nth_ext with 0 0; [exact E|]. intros i Hi. apply H. apply in_seq. lia.
  Qed.
  (** L1, L2 and L_INF are metrics. *)
  Theorem C23_metric m u v w : length u = length v -> length v = length w -> metric3 m u v ->
    exists duv dvu dvw duw,
      get_distance m (finite u) (finite v) = Ok (Fin duv) /\ get_distance m (finite v) (finite u) = Ok (Fin dvu) /\
      get_distance m (finite v) (finite w) = Ok (Fin dvw) /\ get_distance m (finite u) (finite w) = Ok (Fin duw) /\
      0 <= duv /\ (duv = 0 <-> u = v) /\ duv = dvu /\ duw <= duv + dvw.
  Proof.
    intros E1 E2 Hm. destruct (C23_values u v E1) as (A1 & A2 & A3 & _).
    destruct (C23_values v u (eq_sym E1)) as (B1 & B2 & B3 & _). destruct (C23_values v w E2) as (C1 & C2 & C3 & _).
    destruct (C23_values u w) as (D1 & D2 & D3 & _); [congruence|].
    assert (Ec : coords v = coords u) by (unfold coords; congruence). rewrite Ec in *.
    destruct Hm as [->|[->|[-> Hne]]].
    - do 4 eexists. split; [exact A1|]. split; [exact B1|]. split; [exact C1|]. split; [exact D1|].
      split; [apply rsum_nonneg; intros; apply Rabs_pos|]. split; [|split].
      + split.
        * intros H. apply coords_ext; [exact E1|]. intros i Hi.
          assert (Rabs (u#i - v#i) = 0) by (apply (rsum_0_inv (fun i => Rabs (u#i - v#i)) (coords u)); auto; intros; apply Rabs_pos).
          destruct (Req_dec (u#i - v#i) 0) as [Z|N]; [lra|]. now apply Rabs_no_R0 in N.
        * intros ->. rewrite (rsum_ext _ (fun _ => 0)); [apply rsum_zero|]. intros i _. rewrite Rminus_diag_eq, Rabs_R0; auto.
      + apply rsum_ext. intros. apply Rabs_minus_sym.
      + rewrite <- rsum_plus. apply rsum_le. intros i _. replace (u#i - w#i) with ((u#i - v#i) + (v#i - w#i)) by ring. apply Rabs_triang.
    - do 4 eexists. split; [exact A2|]. split; [exact B2|]. split; [exact C2|]. split; [exact D2|].
      split; [apply sqrt_pos|]. split; [|split].
      + split.
        * intros H. apply coords_ext; [exact E1|]. intros i Hi. apply sqrt_eq_0 in H; [|apply rsum_nonneg; intros; apply sqnn].
          pose proof (rsum_sq_0 (fun i => u#i - v#i) (coords u) H i Hi). cbn in *. lra.
        * intros ->. rewrite (rsum_ext _ (fun _ => 0)); [rewrite rsum_zero; apply sqrt_0|]. intros i _. ring.
      + f_equal. apply rsum_ext. intros. ring.
      + rewrite (rsum_ext (fun i => (u#i - w#i) * (u#i - w#i))
                 (fun i => ((u#i - v#i) + (v#i - w#i)) * ((u#i - v#i) + (v#i - w#i)))) by (intros; ring).
        apply minkowski.
    - assert (Hv : v <> []) by (intros ->; destruct u; [congruence|discriminate]).
      do 4 eexists. split; [exact (A3 Hne)|]. split; [exact (B3 Hv)|]. split; [exact (C3 Hv)|]. split; [exact (D3 Hne)|].
      assert (Hc : coords u <> []) by (unfold coords; destruct u; [congruence|discriminate]).
      destruct (rmax_In (fun i => Rabs (u#i - v#i)) (coords u) Hc) as (k & Hk & Ek).
      split; [rewrite Ek; apply Rabs_pos|]. split; [|split].
      + split.
        * intros H. apply coords_ext; [exact E1|]. intros i Hi. pose proof (rmax_ge (fun i => Rabs (u#i - v#i)) (coords u) i Hi) as G.
          cbn in G. rewrite H in G. pose proof (Rabs_pos (u#i - v#i)).
          destruct (Req_dec (u#i - v#i) 0) as [Z|N]; [lra|]. apply Rabs_no_R0 in N. lra.
        * intros ->. rewrite Ek, Rminus_diag_eq, Rabs_R0; auto.
      + apply rmax_ext. intros. apply Rabs_minus_sym.
      + destruct (rmax_In (fun i => Rabs (u#i - w#i)) (coords u) Hc) as (j & Hj & Ej). rewrite Ej.
        pose proof (rmax_ge (fun i => Rabs (u#i - v#i)) (coords u) j Hj). pose proof (rmax_ge (fun i => Rabs (v#i - w#i)) (coords u) j Hj).
        pose proof (Rabs_triang (u#j - v#j) (v#j - w#j)) as T. replace (u#j - v#j + (v#j - w#j)) with (u#j - w#j) in T by ring. cbn in *. lra.
  Qed.

  (** COSINE is symmetric, in [0,1], 1 against a zero vector, 0 between positive multiples. *)
  Theorem C23_cosine u v : length u = length v ->
    exists q, get_distance COSINE (finite u) (finite v) = Ok (Fin q) /\ get_distance COSINE (finite v) (finite u) = Ok (Fin q) /\
      0 <= q <= 1 /\
      ((forall i, u#i = 0) \/ (forall i, v#i = 0) -> q = 1) /\
      (forall c, 0 < c -> (forall i, v#i = c * u#i) -> (exists i, u#i <> 0) -> q = 0).
  Proof.
    intros E. destruct (C23_values u v E) as (_ & _ & _ & A). destruct (C23_values v u (eq_sym E)) as (_ & _ & _ & B).
    assert (Ec : coords v = coords u) by (unfold coords; congruence). rewrite Ec in B.
    set (P := rsum (fun i => u#i * u#i) (coords u)) in *. set (Q := rsum (fun i => v#i * v#i) (coords u)) in *.
    rewrite (rsum_ext (fun i => v#i * u#i) (fun i => u#i * v#i)) in B by (intros; ring).
    set (D := rsum (fun i => u#i * v#i) (coords u)) in *. rewrite (Rmult_comm (sqrt Q)), orb_comm in B.
    assert (Hc : forall x, 0 <= Rmax 0 (Rmin x 1) <= 1).
    { intros x. split; [apply Rmax_l|]. apply Rmax_lub; [lra|apply Rmin_r]. }
    exists (if (reqb P 0 || reqb Q 0)%bool then 1 else Rmax 0 (Rmin (1 - D / (sqrt P * sqrt Q)) 1)).
    split; [rewrite A; now destruct (reqb P 0 || reqb Q 0)%bool|]. split; [rewrite B; now destruct (reqb P 0 || reqb Q 0)%bool|].
    split; [|split].
    - destruct (reqb P 0 || reqb Q 0)%bool; [lra|apply Hc].
    - intros Z. assert (H : (reqb P 0 || reqb Q 0)%bool = true).
      { apply orb_true_iff. destruct Z as [Z|Z]; [left|right].
        - destruct (reqb_spec P 0) as [|N]; [reflexivity|exfalso; apply N]. unfold P.
          rewrite (rsum_ext _ (fun _ => 0)); [apply rsum_zero|]. intros i _. rewrite Z. ring.
        - destruct (reqb_spec Q 0) as [|N]; [reflexivity|exfalso; apply N]. unfold Q.
          rewrite (rsum_ext _ (fun _ => 0)); [apply rsum_zero|]. intros i _. rewrite Z. ring. }
      now rewrite H.
    - intros c Hcp Hm (i & Hi). assert (EQ : Q = c * c * P).
      { unfold Q, P. rewrite <- rsum_scal. apply rsum_ext. intros j _. rewrite Hm. ring. }
      assert (ED : D = c * P). { unfold D, P. rewrite <- rsum_scal. apply rsum_ext. intros j _. rewrite Hm. ring. }
      assert (HP0 : 0 <= P) by (apply rsum_nonneg; intros; apply sqnn).
      assert (HP : P <> 0).
      { intros Z. apply Hi. destruct (Nat.lt_ge_cases i (length u)) as [L|L]; [|now apply nth_overflow].
        apply (rsum_sq_0 (fun i => u#i) (coords u) Z). apply in_seq. lia. }
      assert (HQ : Q <> 0). { rewrite EQ. assert (0 < P) by lra. apply Rgt_not_eq. repeat apply Rmult_lt_0_compat; lra. }
      rewrite (reqb_false P 0 HP), (reqb_false Q 0 HQ). cbn [orb].
      assert (X : D / (sqrt P * sqrt Q) = 1).
      { rewrite EQ, ED, (sqrt_mult (c * c)) by nra. rewrite sqrt_square by lra.
        replace (sqrt P * (c * sqrt P)) with (c * (sqrt P * sqrt P)) by ring. rewrite sqrt_sqrt by lra. field. split; lra. }
      rewrite X. replace (1 - 1) with 0 by ring. rewrite Rmin_left by lra. apply Rmax_left. lra.
  Qed.
End Distances.

(** C25.  Ranking vectors: the rank of an entry is the number of distinct smaller values. *)
#[global] Instance Eqb_xr : Eqb xr.
Proof.
  refine {| beq := fun x y => match x, y with Fin a, Fin b => reqb a b | PInf, PInf | NInf, NInf | NaN, NaN => true | _, _ => false end |}.
  intros [a| | |] [b| | |]; try (constructor; congruence). destruct (reqb_spec a b); constructor; congruence.
Defined.
Definition no_nan (v : list xr) : Prop := ~ In NaN v.
Definition smaller_values (v : list xr) (x : xr) : nat := length (distinct (filter (fun y => xltb y x) v)).

Lemma no_nan_good v : no_nan v -> forall x, In x v -> x <> NaN.
Proof. intros H x Hx ->. contradiction. Qed.
Lemma smaller_values_below v x : no_nan v -> @distinct_below XR v x (smaller_values v x).
Proof.
  intros H. exists (distinct (filter (fun y => xltb y x) v)). split; [reflexivity|]. split; [|split].
  - pose proof (distinct_NoDup (filter (fun y => xltb y x) v)) as ND.
    assert (G : forall y, In y (distinct (filter (fun y => xltb y x) v)) -> y <> NaN).
    { intros y Hy. rewrite distinct_In in Hy. apply filter_In in Hy. now apply (no_nan_good v). }
    induction ND as [|a l Hn Hl IH]; constructor.
    + apply Forall_forall. intros b Hb. assert (a <> b) by (intros ->; contradiction).
      destruct a as [a| | |], b as [b| | |]; cbn; try reflexivity; try congruence.
      apply reqb_false. congruence.
    + apply IH. intros y Hy. apply G. now right.
  - intros y Hy. rewrite distinct_In in Hy. apply filter_In in Hy. exact Hy.
  - intros y Hy Hlt. exists y. split; [apply distinct_In, filter_In; auto|].
    apply (eqb_refl y). now apply (no_nan_good v).
Qed.
Theorem C25_ranking v : no_nan v ->
  @get_ranking_vector XR v = Some (map (fun x => Fin (IZR (Z.of_nat (smaller_values v x)))) v).
Proof.
  intros H. destruct (ranking_spec v (no_nan_good v H)) as (rs & E & L & D). rewrite E. f_equal.
  assert (Er : rs = map (smaller_values v) v).
  { apply nth_ext with 0 0; [now rewrite map_length|]. intros i Hi.
    change (length rs = length v) in L. assert (Hv : i < length v) by lia. apply nth_error_Some in Hv. destruct (nth_error v i) as [x|] eqn:Ex; [|congruence].
    rewrite (nth_error_nth_eq (map (smaller_values v) v) i (smaller_values v x)) by (now rewrite nth_error_map, Ex).
    apply (distinct_below_unique v x); [now apply no_nan_good| |now apply smaller_values_below].
    apply (D i); [exact Ex|]. apply nth_error_nth'. exact Hi. }
  rewrite Er, map_map. reflexivity.
Qed.
(** A NaN makes it fail with a KeyError. *)
Theorem C25_nan_fails v : In NaN v -> @get_ranking_vector XR v = None.
Proof.
  intros H. unfold get_ranking_vector. generalize (@rank_loop XR None (vsort v) 0%Z []) as m. intros m.
  induction v as [|x t IH]; [destruct H|]. cbn. destruct H as [->|H].
  - assert (E : @fget XR m NaN = None) by (clear; induction m as [|[k r] m IH]; cbn; [reflexivity|exact IH]). now rewrite E.
  - rewrite (IH H). now destruct (fget m x).
Qed.
(** Consequences: ranks agree with the order; ranks are 0..k-1 without gaps; strictly increasing maps change nothing. *)
Theorem C25_order v x y : no_nan v -> In x v -> In y v ->
  (smaller_values v x < smaller_values v y <-> xltb x y = true) /\ (smaller_values v x = smaller_values v y <-> x = y).
Proof.
  intros H Hx Hy. pose proof (no_nan_good v H) as G.
  assert (L : forall x y, In x v -> In y v -> xltb x y = true -> smaller_values v x < smaller_values v y).
  { intros a b Ha Hb Hab. apply (distinct_below_lt v a b); auto using smaller_values_below. }
  assert (T : xltb x y = true \/ x = y \/ xltb y x = true).
  { pose proof (G x Hx). pose proof (G y Hy). destruct x as [a| | |], y as [b| | |]; cbn; auto; try congruence.
    destruct (rltb_spec a b); auto. destruct (rltb_spec b a); auto. right. left. f_equal. lra. }
  destruct T as [T|[->|T]].
  - pose proof (L x y Hx Hy T). split; split; auto; try lia. intros ->. lia.
  - split; split; auto; try lia.
  - pose proof (L y x Hy Hx T). split; split; try lia.
    + intros Q. pose proof (@ltb_asym XR _ XR_Ord x y (G x Hx) (G y Hy) Q). cbn in *. congruence.
    + intros ->. lia.
Qed.
Theorem C25_no_gaps v x r : no_nan v -> In x v -> r < smaller_values v x -> exists y, In y v /\ smaller_values v y = r.
Proof.
  intros H Hx. remember (smaller_values v x) as n eqn:En. revert x Hx En r. induction n as [n IH] using lt_wf_ind.
  intros x Hx En r Hr.
  (* the largest value below x has rank n - 1 *)
  set (below := filter (fun y => xltb y x) v).
  assert (Bne : below <> []).
  { intros E. unfold smaller_values in En. fold below in En. rewrite E in En. cbn in En. lia. }
  assert (M : exists y, In y below /\ forall z, In z below -> xltb y z = false).
  { assert (Gb : forall z, In z below -> z <> NaN) by (intros z Hz; apply filter_In in Hz; now apply (no_nan_good v)).
    clearbody below. clear - Bne Gb. induction below as [|a t IHt]; [congruence|]. destruct t as [|b t].
    - exists a. split; [now left|]. intros z [<-|[]]. apply (on_irrefl a). apply Gb. now left.
    - destruct IHt as (y & Hy & Hm); [discriminate|intros; apply Gb; now right|]. destruct (xltb y a) eqn:Ea.
      + exists a. split; [now left|]. intros z [<-|Hz]; [apply (on_irrefl a), Gb; now left|].
        destruct (xltb a z) eqn:Ez; [|reflexivity]. rewrite <- (Hm z Hz). symmetry.
        apply (@on_trans XR _ XR_Ord y a z); auto; apply Gb; cbn; auto.
      + exists y. split; [now right|]. intros z [<-|Hz]; auto. }
  destruct M as (y & Hy & Hm). apply filter_In in Hy. destruct Hy as [Hyv Hyx].
  assert (Ey : S (smaller_values v y) = n).
  { rewrite En. pose proof (no_nan_good v H) as G.
    apply (distinct_below_unique v x); [exact G| |now apply smaller_values_below].
    destruct (smaller_values_below v y H) as (ds & L & P & A & B). exists (y :: ds). split; [cbn; f_equal; exact L|].
    split; [|split].
    - constructor; [|exact P]. apply Forall_forall. intros z Hz. destruct (A z Hz).
      rewrite (@eqb_sym XR _ XR_Ord y z) by auto. apply (@ltb_not_eqb XR _ XR_Ord z y); auto.
    - intros z [<-|Hz]; [auto|]. destruct (A z Hz). split; [assumption|].
      apply (@on_trans XR _ XR_Ord z y x); auto.
    - intros z Hz Hlt. destruct (n_ltb z y) eqn:E.
      + destruct (B z Hz E) as (w & Hw & Ew). exists w. cbn. auto.
      + exists y. split; [now left|]. rewrite (@on_eqb XR _ XR_Ord y z) by auto. rewrite E.
        cbn in Hm |- *. rewrite Hm; [reflexivity|]. apply filter_In. auto. }
  destruct (Nat.eq_dec r (smaller_values v y)) as [->|Nr]; [eauto|].
  apply (IH (smaller_values v y)) with y; auto; lia.
Qed.
Theorem C25_increasing_map (h : xr -> xr) v : no_nan v -> no_nan (map h v) ->
  (forall x y, In x v -> In y v -> xltb (h x) (h y) = xltb x y) ->
  @get_ranking_vector XR (map h v) = @get_ranking_vector XR v.
Proof.
  intros H H' M. rewrite !C25_ranking by assumption. f_equal. rewrite map_map. apply map_ext_in. intros x Hx.
  do 3 f_equal. pose proof (no_nan_good _ H). pose proof (no_nan_good _ H').
  apply (distinct_below_unique (map h v) (h x)); [assumption|now apply smaller_values_below|].
  apply distinct_below_map; auto.
  - intros y Hy. apply H1. now apply in_map.
  - apply H1. now apply in_map.
  - intros y z Hy Hz. apply M; [destruct Hy as [<-|Hy]; assumption|destruct Hz as [<-|Hz]; assumption].
  - now apply smaller_values_below.
Qed.

(** C24.  OrdinalConvergenceIterator. *)
(** two vectors order their entries the same way *)
Definition same_order (u v : list xr) : Prop :=
  forall i j a b c d, nth_error u i = Some a -> nth_error u j = Some b -> nth_error v i = Some c -> nth_error v j = Some d ->
    xltb a b = xltb c d.
Lemma same_order_sym u v : same_order u v -> same_order v u.
Proof. intros H i j a b c d A B C D. symmetry. eapply H; eassumption. Qed.
Lemma same_order_rank_le u v i a c : length u = length v -> no_nan u -> no_nan v -> same_order u v ->
  nth_error u i = Some a -> nth_error v i = Some c -> smaller_values u a <= smaller_values v c.
Proof.
  intros L Nu Nv SO Ha Hc.
  destruct (smaller_values_below u a Nu) as (ds & <- & P & A & _).
  destruct (smaller_values_below v c Nv) as (ds' & <- & P' & A' & B').
  assert (M : exists es, Forall2 (fun x y => exists k, nth_error u k = Some x /\ nth_error v k = Some y) ds es).
  { assert (Hin : forall x, In x ds -> In x u) by (intros x Hx; now apply A).
    clear - Hin L. induction ds as [|x ds IH]; [exists []; constructor|].
    destruct IH as [es Hes]; [intros; apply Hin; now right|].
    destruct (In_nth_error u x (Hin x (or_introl eq_refl))) as [k Hk].
    assert (Hk' : k < length v) by (rewrite <- L; apply nth_error_Some; congruence).
    apply nth_error_Some in Hk'. destruct (nth_error v k) as [y|] eqn:Ey; [|congruence].
    exists (y :: es). constructor; eauto. }
  destruct M as [es M]. assert (LM : length ds = length es) by (clear - M; induction M; cbn; [reflexivity|f_equal; assumption]).
  apply (Nat.le_trans _ (length es)); [apply Nat.eq_le_incl; exact LM|]. apply (@pigeon XR _ XR_Ord).
  - intros y Hy. apply (no_nan_good v Nv). clear - M Hy. induction M as [|x y' ds es (k & K1 & K2) M IH]; [destruct Hy|].
    destruct Hy as [<-|Hy]; [eapply nth_error_In; eassumption|auto].
  - intros y Hy. apply (no_nan_good v Nv), A', Hy.
  - clear A B' A' P' ds' LM. induction M as [|x y ds es (k & K1 & K2) M IH]; constructor.
    + inversion P as [|? ? P1 P2]; subst. apply Forall_forall. intros y' Hy'.
      assert (exists x', In x' ds /\ exists k', nth_error u k' = Some x' /\ nth_error v k' = Some y').
      { clear - M Hy'. induction M as [|x0 y0 ds es K M IH]; [destruct Hy'|]. destruct Hy' as [<-|Hy'].
        - exists x0. split; [now left|exact K].
        - destruct (IH Hy') as (x' & H1 & H2). exists x'. split; [now right|exact H2]. }
      destruct H as (x' & Hx' & k' & K1' & K2'). rewrite Forall_forall in P1. specialize (P1 x' Hx').
      pose proof (no_nan_good u Nu). pose proof (no_nan_good v Nv).
      rewrite (@on_eqb XR _ XR_Ord y y') by (eauto using nth_error_In).
      rewrite (@on_eqb XR _ XR_Ord x x') in P1 by (eauto using nth_error_In). cbn in *.
      rewrite <- (SO k k' x x' y y'), <- (SO k' k x' x y' y) by assumption. exact P1.
    + apply IH. now inversion P.
  - intros y Hy. apply B'.
    + clear - M Hy. induction M as [|x y' ds es (k & K1 & K2) M IH]; [destruct Hy|].
      destruct Hy as [<-|Hy]; [eapply nth_error_In; eassumption|auto].
    + assert (exists x', In x' ds /\ exists k', nth_error u k' = Some x' /\ nth_error v k' = Some y).
      { clear - M Hy. induction M as [|x0 y0 ds es K M IH]; [destruct Hy|]. destruct Hy as [<-|Hy].
        - exists x0. split; [now left|exact K].
        - destruct (IH Hy) as (x' & H1 & H2). exists x'. split; [now right|exact H2]. }
      destruct H as (x' & Hx' & k' & K1' & K2'). cbn. rewrite <- (SO k' i x' a y c) by assumption. apply A, Hx'.
Qed.
(** equal rankings on both sides iff same order *)
Lemma rankings_equal_iff u v : length u = length v -> no_nan u -> no_nan v ->
  exists r1 r2, @get_ranking_vector XR u = Some r1 /\ @get_ranking_vector XR v = Some r2 /\
    (vall_eq r1 r2 = true <-> same_order u v).
Proof.
  intros L Nu Nv. do 2 eexists. split; [now apply C25_ranking|]. split; [now apply C25_ranking|].
  assert (E : vall_eq (F:=XR) (map (fun x => Fin (IZR (Z.of_nat (smaller_values u x)))) u)
                (map (fun x => Fin (IZR (Z.of_nat (smaller_values v x)))) v) = true <->
              forall i a c, nth_error u i = Some a -> nth_error v i = Some c -> smaller_values u a = smaller_values v c).
  { assert (G : forall (f g : xr -> nat) (u v : list xr), length u = length v ->
       (vall_eq (F:=XR) (map (fun x => Fin (IZR (Z.of_nat (f x)))) u) (map (fun x => Fin (IZR (Z.of_nat (g x)))) v) = true <->
        forall i a c, nth_error u i = Some a -> nth_error v i = Some c -> f a = g c)).
    { clear. intros f g u. unfold vall_eq. induction u as [|x u IH]; intros [|y v] L; try discriminate.
      - cbn. split; [|reflexivity]. intros _ i a c H. destruct i; discriminate.
      - cbn [map zipw forallb]. rewrite andb_true_iff, IH by (cbn in L; lia). cbn [n_eqb XR xeqb]. split.
        + intros [H1 H2] i a c Ha Hc. destruct i as [|i]; cbn in *; [|eauto].
          injection Ha as <-. injection Hc as <-. destruct (reqb_spec (IZR (Z.of_nat (f x))) (IZR (Z.of_nat (g y)))) as [Q|]; [|discriminate].
          apply eq_IZR in Q. lia.
        + intros H. split.
          * rewrite (H 0 x y) by reflexivity. apply reqb_refl.
          * intros i a c Ha Hc. apply (H (S i)); assumption. }
    now apply G. }
  rewrite E. split.
  - intros H i j a b c d Ha Hb Hc Hd.
    destruct (C25_order u a b Nu (nth_error_In _ _ Ha) (nth_error_In _ _ Hb)) as [O1 _].
    destruct (C25_order v c d Nv (nth_error_In _ _ Hc) (nth_error_In _ _ Hd)) as [O2 _].
    rewrite (H i a c Ha Hc), (H j b d Hb Hd) in O1.
    destruct (xltb a b), (xltb c d); auto.
    + symmetry. apply O2, O1. reflexivity.
    + apply O1, O2. reflexivity.
  - intros SO i a c Ha Hc. apply Nat.le_antisymm.
    + apply (same_order_rank_le u v i); auto.
    + apply (same_order_rank_le v u i); auto using same_order_sym.
Qed.

(** the comparisons made since the last reset *)
Fixpoint since_reset (os : list (itop XR)) (acc : list (list xr * list xr)) : list (list xr * list xr) :=
  match os with
  | [] => acc
  | OReset :: t => since_reset t []
  | OCompare u v :: t => since_reset t (acc ++ [(u, v)])
  end.
Definition comparable (o : itop XR) : Prop :=
  match o with OCompare u v => length u = length v /\ no_nan u /\ no_nan v | OReset => True end.
(** the last [t] elements of [cs] exist and satisfy [P] *)
Definition last_all {A} (t : nat) (P : A -> Prop) (cs : list A) : Prop :=
  t <= length cs /\ forall k c, length cs - t <= k -> nth_error cs k = Some c -> P c.
Theorem C24_ordinal (t : Z) (os : list (itop XR)) : Forall comparable os ->
  finished (exec (mk_ord (Some t)) os) = Ok true <->
  last_all (Z.to_nat t) (fun c => same_order (fst c) (snd c)) (since_reset os []).
Proof.
  intros HF.
  assert (G : forall os acc n c, Forall comparable os ->
     c <= length acc -> (forall k p, length acc - c <= k -> nth_error acc k = Some p -> same_order (fst p) (snd p)) ->
     (forall p, c < length acc -> nth_error acc (length acc - S c) = Some p -> ~ same_order (fst p) (snd p)) ->
     exists n' c', exec (IOrd t n c) os = IOrd t n' c' /\
       let cs := since_reset os acc in
       c' <= length cs /\ (forall k p, length cs - c' <= k -> nth_error cs k = Some p -> same_order (fst p) (snd p)) /\
       (forall p, c' < length cs -> nth_error cs (length cs - S c') = Some p -> ~ same_order (fst p) (snd p))).
  { clear. induction os as [|o os IH]; intros acc n c HF H1 H2 H3.
    - exists n, c. split; [reflexivity|]. cbn. auto.
    - inversion HF as [|? ? Ho HF']; subst. unfold exec. cbn [fold_left]. destruct o as [u v|]; cbn [exec1 since_reset].
      + destruct Ho as (L & Nu & Nv). destruct (rankings_equal_iff u v L Nu Nv) as (r1 & r2 & E1 & E2 & E).
        cbn [compare]. rewrite E1, E2. cbn [snd]. apply IH; [exact HF'| | |].
        * rewrite app_length. cbn. destruct (vall_eq r1 r2); lia.
        * intros k p Hk Hp. rewrite app_length in Hk. cbn in Hk.
          destruct (Nat.lt_ge_cases k (length acc)) as [Lk|Lk].
          -- rewrite nth_error_app1 in Hp by assumption. destruct (vall_eq r1 r2); [apply (H2 k); auto; lia|lia].
          -- rewrite nth_error_app2 in Hp by assumption. destruct (k - length acc) as [|j] eqn:Ek; [|destruct j; discriminate].
             injection Hp as <-. destruct (vall_eq r1 r2); [now apply E|lia].
        * intros p Hc Hp. rewrite app_length in *. cbn [length] in *. destruct (vall_eq r1 r2) eqn:Ev.
          -- replace (length acc + 1 - S (S c)) with (length acc - S c) in Hp by lia.
             rewrite nth_error_app1 in Hp by lia. apply H3; [lia|exact Hp].
          -- rewrite nth_error_app2 in Hp by lia. replace (length acc + 1 - 1 - length acc) with 0 in Hp by lia.
             injection Hp as <-. cbn. intros Q. apply E in Q. discriminate.
      + cbn [reset]. apply IH; [exact HF'|cbn; lia| |].
        * intros k p _ Hp. destruct k; discriminate.
        * intros p Hc. cbn in Hc. lia. }
  destruct (G os [] 0 0 HF) as (n' & c' & E & H1 & H2 & H3).
  - cbn. lia.
  - intros k p _ Hp. destruct k; discriminate.
  - intros p Hc. cbn in Hc. lia.
  - change (exec (mk_ord (Some t)) os) with (exec (@IOrd XR t 0 0) os). rewrite E. cbn [finished]. set (cs := since_reset os []) in *. unfold last_all. split.
    + intros [= Q]. apply Z.leb_le in Q. split; [lia|]. intros k p Hk Hp. apply (H2 k); [lia|exact Hp].
    + intros [L A]. f_equal. apply Z.leb_le. destruct (Z.le_gt_cases t (Z.of_nat c')); [assumption|exfalso].
      assert (Lc : c' < length cs) by lia.
      assert (exists p, nth_error cs (length cs - S c') = Some p) as [p Hp].
      { destruct (nth_error cs (length cs - S c')) eqn:Q; [eauto|]. apply nth_error_None in Q. lia. }
      apply (H3 p Lc Hp). apply (A (length cs - S c') p); [lia|exact Hp].
Qed.
(** Default: 20 equal rankings in a row. *)
Theorem C24_default {F : Num} : @mk_ord F None = mk_ord (Some 20%Z).
Proof. reflexivity. Qed.
(** finished() of this iterator never raises. *)
Theorem C24_never_fails (t : Z) (os : list (itop XR)) : exists b, finished (exec (mk_ord (Some t)) os) = Ok b.
Proof.
  assert (G : forall os n c, exists n' c', exec (@IOrd XR t n c) os = IOrd t n' c').
  { clear. induction os as [|o os IH]; intros n c; [exists n, c; reflexivity|]. unfold exec. cbn [fold_left].
    destruct o; cbn [exec1 compare reset]; [|apply IH].
    destruct (get_ranking_vector u), (get_ranking_vector v); cbn [snd]; apply IH. }
  destruct (G os 0 0) as (n' & c' & E). exists (t <=? Z.of_nat c')%Z. change (exec (mk_ord (Some t)) os) with (exec (@IOrd XR t 0 0) os). now rewrite E.
Qed.

(** Non-vacuity. *)
Module IterExamples.
  Local Open Scope R_scope.
  Example ranks : @get_ranking_vector XR (map Fin [5; 2; 5; 7]) = Some (map Fin [1; 0; 1; 2]).
  Proof.
    rewrite C25_ranking.
    - assert (R52 : rltb 5 2 = false) by (apply rltb_false; lra). assert (R55 : rltb 5 5 = false) by (apply rltb_false; lra).
      assert (R57 : rltb 5 7 = true) by (apply rltb_true; lra). assert (R25 : rltb 2 5 = true) by (apply rltb_true; lra).
      assert (R22 : rltb 2 2 = false) by (apply rltb_false; lra). assert (R27 : rltb 2 7 = true) by (apply rltb_true; lra).
      assert (R75 : rltb 7 5 = false) by (apply rltb_false; lra). assert (R72 : rltb 7 2 = false) by (apply rltb_false; lra).
      assert (R77 : rltb 7 7 = false) by (apply rltb_false; lra).
      assert (Q52 : reqb 5 2 = false) by (apply reqb_false; lra). assert (Q55 : reqb 5 5 = true) by (apply reqb_refl).
      assert (Q25 : reqb 2 5 = false) by (apply reqb_false; lra).
      unfold smaller_values.
      repeat (cbn -[IZR]; rewrite ?R52, ?R55, ?R57, ?R25, ?R22, ?R27, ?R75, ?R72, ?R77, ?Q52, ?Q55, ?Q25).
      reflexivity.
    - unfold no_nan. cbn. intuition congruence.
  Qed.
  Example c22_hyp : exists (a b : nat -> vec XR) dist, (forall k, get_distance L1 (a k) (b k) = Ok (dist k)) /\
     (forall j, (j < 3)%nat -> n_ltb (dist j) (Fin (1/2)) = false) /\ n_ltb (dist 3%nat) (Fin (1/2)) = true.
  Proof.
    exists (fun _ => finite [0]), (fun k => finite [if Nat.ltb k 3 then 1 else 0]),
      (fun k => if Nat.ltb k 3 then Fin 1 else Fin 0). split; [|split].
    - intros k. destruct (C23_values [0] [if Nat.ltb k 3 then 1 else 0] eq_refl) as (-> & _). cbn -[Nat.ltb].
      destruct (Nat.ltb k 3); do 2 f_equal.
      + replace (0 - 1) with (-1) by ring. rewrite Rabs_left; lra.
      + replace (0 - 0) with 0 by ring. rewrite Rabs_R0. lra.
    - intros j Hj. apply Nat.ltb_lt in Hj. rewrite Hj. cbn. apply rltb_false. lra.
    - cbn. apply rltb_true. lra.
  Qed.
  Example c24_case : finished (exec (mk_ord (Some 2%Z)) [OCompare (finite [1;2]) (finite [3;1]); OCompare (finite [1;2]) (finite [5;7]);
      OCompare (finite [5;7]) (finite [6;9])]) = Ok true.
  Proof.
    apply C24_ordinal.
    - repeat constructor; unfold no_nan; cbn; intuition congruence.
    - split; [cbn; lia|]. intros k c Hk Hc. change (1 <= k)%nat in Hk.
      destruct k as [|[|[|k]]]; cbn in Hc; [lia| | |destruct k; discriminate]; injection Hc as <-;
        intros i j a b u v Ha Hb Hu Hv; destruct i as [|[|i]], j as [|[|j]]; cbn in Ha, Hb, Hu, Hv;
          try (destruct i; discriminate); try (destruct j; discriminate);
          injection Ha as <-; injection Hb as <-; injection Hu as <-; injection Hv as <-; cbn;
          repeat match goal with |- context [rltb ?p ?q] => destruct (rltb_spec p q) end; try reflexivity; lra.
  Qed.
End IterExamples.
