(** Distances between finite vectors over the exact reals. *)
From Coq Require Import Reals Lra Psatz.
From Verif Require Import Base Num Iterators.
Local Open Scope R_scope.

Lemma sqnn x : 0 <= x * x.
Proof. apply Rle_0_sqr. Qed.
Section RealVec.
  Context {A : Type}.
  Implicit Types (f g : A -> R) (l : list A).
  Lemma rsum_sq_0 f l : rsum (fun i => f i * f i) l = 0 -> forall i, In i l -> f i = 0.
  Proof.
    intros H i Hi. assert (f i * f i = 0) by (apply (rsum_0_inv (fun i => f i * f i) l); auto; intros; nra). nra.
  Qed.
  Lemma cauchy_schwarz f g l :
    rsum (fun i => f i * g i) l * rsum (fun i => f i * g i) l <= rsum (fun i => f i * f i) l * rsum (fun i => g i * g i) l.
  Proof.
    set (P := rsum (fun i => f i * f i) l). set (Q := rsum (fun i => g i * g i) l). set (C := rsum (fun i => f i * g i) l).
    assert (HQ : 0 <= Q) by (apply rsum_nonneg; intros; apply sqnn).
    assert (HP : 0 <= P) by (apply rsum_nonneg; intros; apply sqnn).
    destruct (Req_dec Q 0) as [Z|NZ].
    - assert (C = 0).
      { unfold C. rewrite (rsum_ext _ (fun _ => 0)); [apply rsum_zero|]. intros i Hi. rewrite (rsum_sq_0 g l Z i Hi). lra. }
      rewrite H, Z. lra.
    - assert (H : 0 <= rsum (fun i => (Q * f i - C * g i) * (Q * f i - C * g i)) l) by (apply rsum_nonneg; intros; apply sqnn).
      assert (E : rsum (fun i => (Q * f i - C * g i) * (Q * f i - C * g i)) l = Q * (Q * P - C * C)).
      { rewrite (rsum_ext _ (fun i => (Q * Q) * (f i * f i) + (- (2 * Q * C) * (f i * g i) + (C * C) * (g i * g i))))
          by (intros; ring).
        rewrite !rsum_plus, !rsum_scal. fold P Q C. ring. }
      rewrite E in H. assert (0 < Q) by lra. assert (0 <= Q * P - C * C) by nra. lra.
  Qed.
  Lemma sqrt_cs f g l :
    Rabs (rsum (fun i => f i * g i) l) <= sqrt (rsum (fun i => f i * f i) l) * sqrt (rsum (fun i => g i * g i) l).
  Proof.
    rewrite <- sqrt_mult by (apply rsum_nonneg; intros; apply sqnn).
    rewrite <- sqrt_Rsqr_abs. apply sqrt_le_1.
    - apply Rle_0_sqr.
    - apply Rmult_le_pos; apply rsum_nonneg; intros; apply sqnn.
    - unfold Rsqr. apply cauchy_schwarz.
  Qed.
  Lemma minkowski f g l :
    sqrt (rsum (fun i => (f i + g i) * (f i + g i)) l) <=
    sqrt (rsum (fun i => f i * f i) l) + sqrt (rsum (fun i => g i * g i) l).
  Proof.
    set (P := rsum (fun i => f i * f i) l). set (Q := rsum (fun i => g i * g i) l).
    assert (HQ : 0 <= Q) by (apply rsum_nonneg; intros; apply sqnn).
    assert (HP : 0 <= P) by (apply rsum_nonneg; intros; apply sqnn).
    pose proof (sqrt_pos P). pose proof (sqrt_pos Q).
    rewrite <- (sqrt_Rsqr (sqrt P + sqrt Q)) by lra. apply sqrt_le_1.
    - apply rsum_nonneg; intros; apply sqnn.
    - apply Rle_0_sqr.
    - unfold Rsqr.
      rewrite (rsum_ext _ (fun i => f i * f i + (2 * (f i * g i) + g i * g i))) by (intros; ring).
      rewrite !rsum_plus, rsum_scal. fold P Q.
      pose proof (sqrt_cs f g l) as H1. fold P Q in H1. pose proof (Rle_abs (rsum (fun i => f i * g i) l)).
      pose proof (sqrt_sqrt P HP). pose proof (sqrt_sqrt Q HQ). nra.
  Qed.

  (** the vectors of the model that hold finite numbers *)
  Notation fv f l := (map (fun i => Fin (f i)) l).
  Lemma vsub_fv f g l : vsub (fv f l) (fv g l) = fv (fun i => f i - g i) l.
  Proof. unfold vsub. rewrite zipw_map. reflexivity. Qed.
  Lemma vmul_fv f g l : vmul (fv f l) (fv g l) = fv (fun i => f i * g i) l.
  Proof. unfold vmul. rewrite zipw_map. reflexivity. Qed.
  Lemma dot_fv f g l : dot (fv f l) (fv g l) = Fin (rsum (fun i => f i * g i) l).
  Proof. unfold dot. rewrite vmul_fv. apply vsum_fin. Qed.
  Lemma norm2_fv f l : norm2 (fv f l) = Fin (sqrt (rsum (fun i => f i * f i) l)).
  Proof. unfold norm2. rewrite dot_fv. apply xsqrt_fin. apply rsum_nonneg. intros; apply sqnn. Qed.
  Lemma abs_fv f l : map n_abs (fv f l) = fv (fun i => Rabs (f i)) l.
  Proof. rewrite map_map. reflexivity. Qed.

  Lemma distance_l1 f g l : get_distance L1 (fv f l) (fv g l) = Ok (Fin (rsum (fun i => Rabs (f i - g i)) l)).
  Proof. cbn [get_distance]. unfold norm1. rewrite vsub_fv, abs_fv, vsum_fin. reflexivity. Qed.
  Lemma distance_l2 f g l :
    get_distance L2 (fv f l) (fv g l) = Ok (Fin (sqrt (rsum (fun i => (f i - g i) * (f i - g i)) l))).
  Proof. cbn [get_distance]. rewrite vsub_fv, norm2_fv. reflexivity. Qed.
  Lemma distance_linf f g l : l <> [] ->
    get_distance L_INF (fv f l) (fv g l) = Ok (Fin (rmax (fun i => Rabs (f i - g i)) l)).
  Proof. intros H. cbn [get_distance]. unfold norm_inf. rewrite vsub_fv, abs_fv, npmax_fin by assumption. reflexivity. Qed.
  Definition rclip (x : R) : R := Rmax 0 (Rmin x 1).
  Lemma clip_fin x : clip01 (Fin x) = Fin (rclip x).
  Proof.
    unfold clip01, rclip, Rmax, Rmin. cbn [n_ltb XR xltb n_ofZ]. destruct (rltb_spec x 0), (rltb_spec 1 x);
      destruct (Rle_dec x 1); try lra; destruct (Rle_dec 0 _); try lra; try reflexivity; f_equal; lra.
  Qed.
  Lemma distance_cos f g l :
    let P := rsum (fun i => f i * f i) l in let Q := rsum (fun i => g i * g i) l in
    get_distance COSINE (fv f l) (fv g l) =
    Ok (if (reqb P 0 || reqb Q 0)%bool then Fin 1
        else Fin (rclip (1 - rsum (fun i => f i * g i) l / (sqrt P * sqrt Q)))).
  Proof.
    intros P Q. cbn [get_distance]. rewrite !norm2_fv, dot_fv. fold P Q.
    assert (HQ : 0 <= Q) by (apply rsum_nonneg; intros; apply sqnn).
    assert (HP : 0 <= P) by (apply rsum_nonneg; intros; apply sqnn).
    assert (Z : forall x, 0 <= x -> @n_eqb XR (Fin (sqrt x)) (n_ofZ 0) = reqb x 0).
    { intros x Hx. cbn. destruct (reqb_spec x 0) as [->|N].
      - rewrite sqrt_0. apply reqb_refl.
      - apply reqb_false. intros E. apply N. apply sqrt_eq_0; assumption. }
    rewrite !Z by assumption. destruct (reqb_spec P 0) as [EP|NP]; [reflexivity|]. destruct (reqb_spec Q 0) as [EQ|NQ]; [reflexivity|].
    cbn [orb]. f_equal. cbn [n_mul XR xmul n_div].
    assert (0 < sqrt P) by (apply sqrt_lt_R0; lra). assert (0 < sqrt Q) by (apply sqrt_lt_R0; lra).
    rewrite xdiv_fin by nra. cbn [n_sub n_ofZ XR]. rewrite xsub_fin. apply clip_fin.
  Qed.
End RealVec.
