(** Theorems added after the third round of tests against wrong programs (see seeded/LOG.jsonl): C52, C75. *)
From Coq Require Import Reals Lra.
From Verif Require Import Base Num Matrix Supervised Experiment Graph.

(** ** C52: background, edges and progress bar of the three colour schemes *)
(** White, grey and black; the plain scheme has a fully transparent background (alpha 0) and black edges. *)
Theorem C52_other_colours {S V W} (sch : scheme S V W XR) :
  get_background_colour sch = (match sch with PlainScheme => [Fin 1; Fin 1; Fin 1; Fin 0] | _ => [Fin 1; Fin 1; Fin 1] end) /\
  get_edge_colour sch = (match sch with PlainScheme => [Fin 0; Fin 0; Fin 0] | _ => [Fin (1/2); Fin (1/2); Fin (1/2)] end) /\
  get_animation_progress_colour sch = [Fin 0; Fin 0; Fin 0].
Proof.
  assert (L : @lit XR 1 2 = Fin (1/2)) by (unfold lit; cbn [XR n_div n_ofZ]; apply xdiv_fin; lra).
  destruct sch; repeat split; cbn [get_edge_colour]; rewrite ?L; reflexivity.
Qed.

(** ** C75: the part of the matrix used for a shape, also for negative numbers *)
(** A non-negative number keeps that many items (or all of them), a negative one drops that many at the end (or all). *)
Definition sliced {A} (n : Z) (l kept : list A) : Prop :=
  exists rest, l = kept ++ rest /\
    ((0 <= n)%Z -> Z.of_nat (length kept) = Z.min n (Z.of_nat (length l))) /\ ((n < 0)%Z -> Z.of_nat (length rest) = Z.min (- n) (Z.of_nat (length l))).
Lemma slice_sliced {A} n (l : list A) : sliced n l (firstn (slice_end (length l) n) l).
Proof.
  exists (skipn (slice_end (length l) n) l). split; [symmetry; apply firstn_skipn|]. rewrite firstn_length, skipn_length. unfold slice_end.
  destruct (Z.ltb_spec n 0); split; intros; lia.
Qed.
Theorem C75_slices {C} (m : matrix C) n k : exists rows, sliced n m rows /\ Forall2 (sliced k) rows (reduce_to m n k).
Proof.
  exists (firstn (slice_end (length m) n) m). split; [apply slice_sliced|]. unfold reduce_to. induction (firstn (slice_end (length m) n) m) as [|row l IH]; [constructor|]. cbn [map]. constructor; [apply slice_sliced|exact IH].
Qed.
Module SeedExamples.
  Definition m : matrix nat := [[Some 1; None; Some 2]; [None; Some 3; Some 4]]%nat.
  Example last_row_dropped : reduce_to m (-1) (-2) = [[Some 1]]%nat /\ reduce_to m (-5) 7 = [] /\ reduce_to m 2 (-1) = [[Some 1; None]; [None; Some 3]]%nat.
  Proof. repeat split. Qed.
  Example schemes : get_background_colour (PlainScheme (S:=nat) (V:=nat) (W:=nat) (F:=XR)) <> get_background_colour (DefaultScheme (S:=nat) (V:=nat) (W:=nat) (F:=XR)).
  Proof. discriminate. Qed.
End SeedExamples.
