(** scipy.sparse matrices as used by the library.  A matrix is its shape, the set of stored positions and the entries.
    The storage format (CSR/CSC/COO) only matters for the order of the additions in a product, which is ascending in
    the column index for [M @ x] and ascending in the row index of [M] for [M.T @ x] (csr_matvec / csc_matvec). *)
From Coq Require Import Reals Lra.
From Verif Require Import Base Num.
Local Open Scope num_scope.

Record mat (F : Num) := Mat {
  m_rows : nat;
  m_cols : nat;
  m_stored : nat -> nat -> bool;
  m_entry : nat -> nat -> F
}.
Arguments Mat {F}. Arguments m_rows {F}. Arguments m_cols {F}. Arguments m_stored {F}. Arguments m_entry {F}.

Section Sparse.
  Context {F : Num}.

  (* scipy.sparse.csr_matrix((data, (rows, cols)), shape): entries given more than once are summed *)
  Definition coo_at (l : list ((nat * nat) * F)) (i j : nat) : list F :=
    map snd (filter (fun e => beq (fst e) (i, j)) l).
  Definition csr_of (r c : nat) (l : list ((nat * nat) * F)) : mat F :=
    Mat r c
      (fun i j => match coo_at l i j with [] => false | _ => true end)
      (fun i j => match coo_at l i j with [] => 0 | v :: t => fold_left n_add t v end).
  (* csr_matrix((r, c)): no stored entry *)
  Definition csr_empty (r c : nat) : mat F := Mat r c (fun _ _ => false) (fun _ _ => 0).
  (* M.T *)
  Definition mtr (M : mat F) : mat F :=
    Mat (m_cols M) (m_rows M) (fun i j => m_stored M j i) (fun i j => m_entry M j i).
  (* M @ x, for a vector x *)
  Definition mv (M : mat F) (x : vec F) : vec F :=
    map (fun i => fold_left (fun a j => a + m_entry M i j * nth j x 0) (filter (m_stored M i) (seq 0 (m_cols M))) 0)
        (seq 0 (m_rows M)).
  (* M.multiply(v): column j multiplied by v[j], same stored positions *)
  Definition mmulc (M : mat F) (v : vec F) : mat F :=
    Mat (m_rows M) (m_cols M) (m_stored M) (fun i j => m_entry M i j * nth j v 0).
  (* A @ B, both sparse *)
  Definition mm (A B : mat F) : mat F :=
    Mat (m_rows A) (m_cols B)
      (fun i k => existsb (fun j => m_stored A i j && m_stored B j k) (seq 0 (m_cols A)))
      (fun i k => fold_left (fun a j => a + m_entry A i j * m_entry B j k)
                    (filter (fun j => m_stored A i j && m_stored B j k) (seq 0 (m_cols A))) 0).
  (* x * M, for a scalar x *)
  Definition smul (x : F) (M : mat F) : mat F :=
    Mat (m_rows M) (m_cols M) (m_stored M) (fun i j => x * m_entry M i j).
  (* A + B, both sparse: the result stores its nonzero entries only (csr_plus_csr) *)
  Definition madd (A B : mat F) : mat F :=
    let e i j := if m_stored A i j then (if m_stored B i j then m_entry A i j + m_entry B i j else m_entry A i j)
                 else (if m_stored B i j then m_entry B i j else 0) in
    Mat (m_rows A) (m_cols A)
      (fun i j => (m_stored A i j || m_stored B i j) && negb (e i j =? 0)) e.
  (* zip( *M.nonzero()): positions of the nonzero entries, row by row *)
  Definition nonzero (M : mat F) : list (nat * nat) :=
    filter (fun ij => m_stored M (fst ij) (snd ij) && negb (m_entry M (fst ij) (snd ij) =? 0))
      (list_prod (seq 0 (m_rows M)) (seq 0 (m_cols M))).

  (** [M] is the matrix of a relation between two lists of labels. *)
  Definition mrep {A B} (M : mat F) (R : list A) (C : list B) (rel : A -> B -> bool) (ent : A -> B -> F) : Prop :=
    m_rows M = length R /\ m_cols M = length C /\
    forall i j a b, nth_error R i = Some a -> nth_error C j = Some b ->
      m_stored M i j = rel a b /\ (rel a b = true -> m_entry M i j = ent a b).

  Lemma mrep_tr {A B} M (R : list A) (C : list B) rel ent :
    mrep M R C rel ent -> mrep (mtr M) C R (fun b a => rel a b) (fun b a => ent a b).
  Proof. intros (Hr & Hc & H). split; [exact Hc|split; [exact Hr|]]. intros i j b a Hb Ha. cbn. now apply H. Qed.

  Lemma fold_left_add_map {A} (f : A -> F) l a :
    fold_left (fun a x => a + f x) l a = fold_left n_add (map f l) a.
  Proof. revert a. induction l; cbn; auto. Qed.

  Lemma mv_rep {A B} M (R : list A) (C : list B) rel ent (g : B -> F) :
    mrep M R C rel ent ->
    mv M (map g C) = map (fun a => fold_left n_add (map (fun b => ent a b * g b) (filter (rel a) C)) 0) R.
  Proof.
    intros (Hr & Hc & H). unfold mv. rewrite Hr, Hc. apply map_seq_nth. intros i a Ha.
    rewrite fold_left_add_map. f_equal. apply filter_seq_nth.
    - intros j b Hb. now apply H.
    - intros j b Hb Hq. rewrite (nth_error_nth_eq (map g C) j (g b)).
      + f_equal. now apply (H i j a b).
      + now rewrite nth_error_map, Hb.
  Qed.
  Lemma mmulc_rep {A B} M (R : list A) (C : list B) rel ent (g : B -> F) :
    mrep M R C rel ent -> mrep (mmulc M (map g C)) R C rel (fun a b => ent a b * g b).
  Proof.
    intros (Hr & Hc & H). split; [exact Hr|split; [exact Hc|]]. intros i j a b Ha Hb. cbn.
    destruct (H i j a b Ha Hb) as [H1 H2]. split; [exact H1|]. intros Hq. rewrite H2 by assumption. f_equal.
    apply nth_error_nth_eq. now rewrite nth_error_map, Hb.
  Qed.
  Lemma smul_rep {A B} x M (R : list A) (C : list B) rel ent :
    mrep M R C rel ent -> mrep (smul x M) R C rel (fun a b => x * ent a b).
  Proof.
    intros (Hr & Hc & H). split; [exact Hr|split; [exact Hc|]]. intros i j a b Ha Hb. cbn.
    destruct (H i j a b Ha Hb) as [H1 H2]. split; [exact H1|]. intros Hq. now rewrite H2.
  Qed.
  Lemma existsb_seq_nth {A} (p : nat -> bool) (q : A -> bool) (l : list A) :
    (forall i x, nth_error l i = Some x -> p i = q x) -> existsb p (seq 0 (length l)) = existsb q l.
  Proof.
    revert p. induction l as [|x t IH]; cbn; intros p H; [reflexivity|].
    rewrite (H 0%nat x) by reflexivity. f_equal. rewrite <- seq_shift.
    rewrite <- (IH (fun i => p (S i))) by (intros i y Hy; apply (H (S i)); exact Hy).
    clear. induction (seq 0 (length t)) as [|i s IHs]; cbn; [reflexivity|]. now rewrite IHs.
  Qed.
  Lemma mm_rep {A B D} M N (R : list A) (C : list B) (L : list D) rel ent rel' ent' :
    mrep M R C rel ent -> mrep N C L rel' ent' ->
    mrep (mm M N) R L (fun a d => existsb (fun b => rel a b && rel' b d) C)
      (fun a d => fold_left n_add (map (fun b => ent a b * ent' b d) (filter (fun b => rel a b && rel' b d) C)) 0).
  Proof.
    intros (Hr & Hc & H) (Hr' & Hc' & H'). split; [exact Hr|split; [exact Hc'|]]. intros i k a d Ha Hd. cbn.
    rewrite Hc. split.
    - apply existsb_seq_nth. intros j b Hb. f_equal; [apply (H i j a b Ha Hb)|apply (H' j k b d Hb Hd)].
    - intros _. rewrite fold_left_add_map. f_equal. apply filter_seq_nth.
      + intros j b Hb. f_equal; [apply (H i j a b Ha Hb)|apply (H' j k b d Hb Hd)].
      + intros j b Hb Hq. apply andb_true_iff in Hq. destruct Hq. f_equal; [now apply (proj2 (H i j a b Ha Hb))|now apply (proj2 (H' j k b d Hb Hd))].
  Qed.
  Lemma madd_rep {A B} M N (R : list A) (C : list B) rel ent rel' ent' :
    mrep M R C rel ent -> mrep N R C rel' ent' ->
    let e a b := if rel a b then (if rel' a b then ent a b + ent' a b else ent a b)
                 else (if rel' a b then ent' a b else 0) in
    mrep (madd M N) R C (fun a b => (rel a b || rel' a b) && negb (e a b =? 0)) e.
  Proof.
    intros (Hr & Hc & H) (Hr' & Hc' & H') e. split; [exact Hr|split; [exact Hc|]]. intros i j a b Ha Hb. cbn.
    destruct (H i j a b Ha Hb) as [H1 H2], (H' i j a b Ha Hb) as [H3 H4]. rewrite H1, H3.
    assert (E : (if rel a b then if rel' a b then m_entry M i j + m_entry N i j else m_entry M i j
                 else if rel' a b then m_entry N i j else 0) = e a b).
    { unfold e. destruct (rel a b), (rel' a b); rewrite ?H2, ?H4; auto. }
    rewrite E. split; [reflexivity|]. intros _. reflexivity.
  Qed.
End Sparse.

(** A product with a finite-valued vector, over the exact reals. *)
Lemma mv_rep_fin {A B} (M : mat XR) (Rw : list A) (C : list B) rel (e : A -> B -> R) (g : B -> R) :
  mrep M Rw C rel (fun a b => Fin (e a b)) ->
  mv M (map (fun b => Fin (g b)) C) = map (fun a => Fin (rsum (fun b => (e a b * g b)%R) (filter (rel a) C))) Rw.
Proof.
  intros H. rewrite (mv_rep _ _ _ _ _ _ H). apply map_ext. intros a.
  change (fun b => Fin (e a b) * Fin (g b)) with (fun b => Fin (e a b * g b)%R). apply (vsum_fin (fun b => (e a b * g b)%R)).
Qed.
Lemma mv_rep_one {A B} (M : mat XR) (Rw : list A) (C : list B) rel (g : B -> R) :
  mrep M Rw C rel (fun _ _ => 1) ->
  mv M (map (fun b => Fin (g b)) C) = map (fun a => Fin (rsum g (filter (rel a) C))) Rw.
Proof.
  intros H. rewrite (mv_rep_fin M Rw C rel (fun _ _ => 1%R)); [|exact H].
  apply map_ext. intros a. f_equal. apply rsum_ext. intros b _. lra.
Qed.
