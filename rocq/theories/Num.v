(** Numbers.  All numeric code of the library is modelled once, over a record of the operations it uses.  [XR] is the
    exact instance (extended reals with IEEE special values, no rounding, no signed zero); Float.v gives binary64. *)
From Coq Require Import Reals Lra.
From Verif Require Import Base.
Local Open Scope R_scope.

Record Num := mkNum {
  num :> Type;
  n_ofZ : Z -> num;
  n_add : num -> num -> num;
  n_sub : num -> num -> num;
  n_mul : num -> num -> num;
  n_div : num -> num -> num;
  n_opp : num -> num;
  n_abs : num -> num;
  n_sqrt : num -> num;
  n_ln : num -> num;
  n_exp : num -> num;
  n_pow : num -> num -> num;
  n_ltb : num -> num -> bool;
  n_eqb : num -> num -> bool;
  (* int(x): None is the ValueError/OverflowError of int(nan), int(inf) *)
  n_trunc : num -> option Z
}.
Arguments n_ofZ {_}. Arguments n_add {_}. Arguments n_sub {_}. Arguments n_mul {_}. Arguments n_div {_}.
Arguments n_opp {_}. Arguments n_abs {_}. Arguments n_sqrt {_}. Arguments n_ln {_}. Arguments n_exp {_}.
Arguments n_pow {_}. Arguments n_ltb {_}. Arguments n_eqb {_}. Arguments n_trunc {_}.

Declare Scope num_scope.
Delimit Scope num_scope with num.
Infix "+" := n_add : num_scope.
Infix "-" := n_sub : num_scope.
Infix "*" := n_mul : num_scope.
Infix "/" := n_div : num_scope.
Notation "- x" := (n_opp x) : num_scope.
Notation "0" := (n_ofZ 0) : num_scope.
Notation "1" := (n_ofZ 1) : num_scope.
Infix "<?" := n_ltb : num_scope.
Infix "=?" := n_eqb : num_scope.

(** A decimal literal a/b of the source text, e.g. 0.9 = 9/10.  In binary64 the quotient of two exactly representable
    integers is the correctly rounded value of the literal, which is what Python's parser produces. *)
Definition lit {F : Num} (a b : Z) : F := (n_ofZ a / n_ofZ b)%num.
(** x >= y, x <= y, x > y, x != y as IEEE predicates *)
Definition n_leb {F : Num} (x y : F) : bool := n_ltb x y || n_eqb x y.

(** * Vectors (1-d numpy arrays) *)
Definition vec (F : Num) := list F.
Section Vec.
  Context {F : Num}.
  Local Open Scope num_scope.
  Definition vadd : vec F -> vec F -> vec F := zipw n_add.
  Definition vsub : vec F -> vec F -> vec F := zipw n_sub.
  Definition vmul : vec F -> vec F -> vec F := zipw n_mul.
  Definition vdiv : vec F -> vec F -> vec F := zipw n_div.
  Definition vdivs (v : vec F) (x : F) : vec F := map (fun a => a / x) v.
  Definition sdivv (x : F) (v : vec F) : vec F := map (fun a => x / a) v.
  (* np.full((n,), x) *)
  Definition vfull (n : nat) (x : F) : vec F := repeat x n.
  Definition vones (n : nat) : vec F := vfull n 1.
  Definition vzeros (n : nat) : vec F := vfull n 0.
  (* left-to-right sum starting from 0 *)
  Definition vsum (v : vec F) : F := fold_left n_add v 0.
  (* Python's builtin max on a sequence: keeps the first maximum, replaces it when a later item compares greater.
     None is the ValueError on an empty sequence. *)
  Definition pymax (v : vec F) : option F :=
    match v with
    | [] => None
    | x :: t => Some (fold_left (fun m y => if m <? y then y else m) t x)
    end.
  (* np.max: NaN if any entry is NaN (x =? x is false exactly for NaN) *)
  Definition npmax (v : vec F) : option F :=
    match v with
    | [] => None
    | x :: t => Some (fold_left (fun m y => if m =? m then (if y =? y then (if m <? y then y else m) else y) else m) t x)
    end.
End Vec.

(** * XR: exact extended reals *)
Inductive xr := Fin (r : R) | PInf | NInf | NaN.

Definition rltb (a b : R) : bool := if Rlt_dec a b then true else false.
Definition reqb (a b : R) : bool := if Req_EM_T a b then true else false.
Lemma rltb_spec a b : reflect (a < b) (rltb a b).
Proof. unfold rltb. destruct (Rlt_dec a b); constructor; assumption. Qed.
Lemma reqb_spec a b : reflect (a = b) (reqb a b).
Proof. unfold reqb. destruct (Req_EM_T a b); constructor; assumption. Qed.
Lemma rltb_true a b : a < b -> rltb a b = true.
Proof. destruct (rltb_spec a b); auto; contradiction. Qed.
Lemma rltb_false a b : b <= a -> rltb a b = false.
Proof. destruct (rltb_spec a b); auto; lra. Qed.
Lemma reqb_false a b : a <> b -> reqb a b = false.
Proof. destruct (reqb_spec a b); auto; contradiction. Qed.
Lemma reqb_refl a : reqb a a = true.
Proof. destruct (reqb_spec a a); auto; contradiction. Qed.

(* an infinity times / over something of the sign of r *)
Definition xsign (r : R) (pos : bool) : xr :=
  if rltb 0 r then (if pos then PInf else NInf)
  else if rltb r 0 then (if pos then NInf else PInf) else NaN.

Definition xadd (x y : xr) : xr :=
  match x, y with
  | Fin a, Fin b => Fin (a + b)
  | NaN, _ | _, NaN => NaN
  | PInf, NInf | NInf, PInf => NaN
  | PInf, _ | _, PInf => PInf
  | NInf, _ | _, NInf => NInf
  end.
Definition xopp (x : xr) : xr :=
  match x with Fin a => Fin (- a) | PInf => NInf | NInf => PInf | NaN => NaN end.
Definition xsub (x y : xr) : xr := xadd x (xopp y).
Definition xmul (x y : xr) : xr :=
  match x, y with
  | Fin a, Fin b => Fin (a * b)
  | NaN, _ | _, NaN => NaN
  | PInf, PInf | NInf, NInf => PInf
  | PInf, NInf | NInf, PInf => NInf
  | Fin a, PInf | PInf, Fin a => xsign a true
  | Fin a, NInf | NInf, Fin a => xsign a false
  end.
Definition xdiv (x y : xr) : xr :=
  match x, y with
  | NaN, _ | _, NaN => NaN
  | Fin a, Fin b => if reqb b 0 then xsign a true else Fin (a / b)
  | Fin _, (PInf | NInf) => Fin 0
  | PInf, Fin b => if rltb b 0 then NInf else PInf
  | NInf, Fin b => if rltb b 0 then PInf else NInf
  | _, _ => NaN
  end.
Definition xabs (x : xr) : xr :=
  match x with Fin a => Fin (Rabs a) | PInf | NInf => PInf | NaN => NaN end.
Definition xsqrt (x : xr) : xr :=
  match x with Fin a => if rltb a 0 then NaN else Fin (sqrt a) | PInf => PInf | _ => NaN end.
Definition xln (x : xr) : xr :=
  match x with
  | Fin a => if rltb 0 a then Fin (ln a) else if reqb a 0 then NInf else NaN
  | PInf => PInf | _ => NaN
  end.
Definition xexp (x : xr) : xr :=
  match x with Fin a => Fin (exp a) | PInf => PInf | NInf => Fin 0 | NaN => NaN end.
Definition is_int (r : R) : bool := reqb (IZR (Int_part r)) r.
Definition xltb (x y : xr) : bool :=
  match x, y with
  | Fin a, Fin b => rltb a b
  | Fin _, PInf | NInf, Fin _ | NInf, PInf => true
  | _, _ => false
  end.
Definition xeqb (x y : xr) : bool :=
  match x, y with
  | Fin a, Fin b => reqb a b
  | PInf, PInf | NInf, NInf => true
  | _, _ => false
  end.
(* C99 pow, as used by numpy's ** on float64 *)
Definition xpow (x y : xr) : xr :=
  if xeqb y (Fin 0) then Fin 1 else if xeqb x (Fin 1) then Fin 1 else
  match x, y with
  | NaN, _ | _, NaN => NaN
  | Fin a, Fin b =>
      if rltb 0 a then Fin (Rpower a b)
      else if reqb a 0 then (if rltb 0 b then Fin 0 else PInf)
      else if is_int b then Fin (powerRZ a (Int_part b)) else NaN
  | Fin a, PInf => if rltb (Rabs a) 1 then Fin 0 else if reqb (Rabs a) 1 then Fin 1 else PInf
  | Fin a, NInf => if rltb (Rabs a) 1 then PInf else if reqb (Rabs a) 1 then Fin 1 else Fin 0
  | PInf, Fin b => if rltb 0 b then PInf else Fin 0
  | NInf, Fin b => if rltb 0 b then (if is_int b && negb (Z.even (Int_part b)) then NInf else PInf) else Fin 0
  | _, PInf => PInf
  | _, NInf => Fin 0
  end.
(* int(x): truncation towards zero *)
Definition xtrunc (x : xr) : option Z :=
  match x with
  | Fin a => Some (if rltb a 0 then (- Int_part (- a))%Z else Int_part a)
  | _ => None
  end.
Definition XR : Num := {|
  num := xr; n_ofZ := fun z => Fin (IZR z); n_add := xadd; n_sub := xsub; n_mul := xmul; n_div := xdiv; n_opp := xopp;
  n_abs := xabs; n_sqrt := xsqrt; n_ln := xln; n_exp := xexp; n_pow := xpow; n_ltb := xltb; n_eqb := xeqb;
  n_trunc := xtrunc |}.
Canonical XR.

Definition is_fin (x : xr) : Prop := exists r, x = Fin r.

(** evaluation rules on finite values *)
Lemma xdiv_fin a b : b <> 0 -> xdiv (Fin a) (Fin b) = Fin (a / b).
Proof. intros H. cbn. now rewrite reqb_false. Qed.
Lemma xsub_fin a b : xsub (Fin a) (Fin b) = Fin (a - b).
Proof. reflexivity. Qed.
Lemma xln_fin a : 0 < a -> xln (Fin a) = Fin (ln a).
Proof. intros H. cbn. now rewrite rltb_true. Qed.
Lemma xsqrt_fin a : 0 <= a -> xsqrt (Fin a) = Fin (sqrt a).
Proof. intros H. cbn. now rewrite rltb_false. Qed.
Lemma xpow_fin a b : 0 < a -> xpow (Fin a) (Fin b) = Fin (Rpower a b).
Proof.
  intros H. unfold xpow, xeqb. destruct (reqb_spec b 0) as [->|Hb].
  - now rewrite Rpower_O.
  - destruct (reqb_spec a 1) as [->|Ha].
    + unfold Rpower. rewrite ln_1, Rmult_0_r, exp_0. reflexivity.
    + now rewrite rltb_true.
Qed.
Lemma lit_fin a b : IZR b <> 0 -> @lit XR a b = Fin (IZR a / IZR b).
Proof. intros H. unfold lit. cbn. now rewrite reqb_false. Qed.

(** * Finite sums and maxima over the reals *)
Fixpoint rsum {A} (f : A -> R) (l : list A) : R := match l with [] => 0 | x :: t => f x + rsum f t end.
(** largest value of [f] on a non-empty list *)
Fixpoint rmaxl (l : list R) : R :=
  match l with [] => 0 | [x] => x | x :: t => Rmax x (rmaxl t) end.
Definition rmax {A} (f : A -> R) (l : list A) : R := rmaxl (map f l).

Lemma rsum_app {A} (f : A -> R) l m : rsum f (l ++ m) = rsum f l + rsum f m.
Proof. induction l; cbn; [lra|]. rewrite IHl. lra. Qed.
Lemma rsum_ext {A} (f g : A -> R) l : (forall x, In x l -> f x = g x) -> rsum f l = rsum g l.
Proof. induction l; cbn; intros H; [reflexivity|]. rewrite H, IHl; auto. Qed.
Lemma rsum_plus {A} (f g : A -> R) l : rsum (fun x => f x + g x) l = rsum f l + rsum g l.
Proof. induction l; cbn; [lra|]. rewrite IHl. lra. Qed.
Lemma rsum_scal {A} (f : A -> R) c l : rsum (fun x => c * f x) l = c * rsum f l.
Proof. induction l; cbn; [lra|]. rewrite IHl. lra. Qed.
Lemma rsum_scal_r {A} (f : A -> R) c l : rsum (fun x => f x * c) l = rsum f l * c.
Proof. induction l; cbn; [lra|]. rewrite IHl. lra. Qed.
Lemma rsum_div {A} (f : A -> R) c l : rsum (fun x => f x / c) l = rsum f l / c.
Proof. unfold Rdiv. apply rsum_scal_r. Qed.
Lemma rsum_const {A} c (l : list A) : rsum (fun _ => c) l = INR (length l) * c.
Proof. induction l; cbn [rsum length]; [cbn; lra|]. rewrite IHl, S_INR. lra. Qed.
Lemma rsum_nonneg {A} (f : A -> R) l : (forall x, In x l -> 0 <= f x) -> 0 <= rsum f l.
Proof. induction l; cbn; intros H; [lra|]. pose proof (H a (or_introl eq_refl)). assert (0 <= rsum f l) by auto. lra. Qed.
Lemma rsum_le {A} (f g : A -> R) l : (forall x, In x l -> f x <= g x) -> rsum f l <= rsum g l.
Proof. induction l; cbn; intros H; [lra|]. pose proof (H a (or_introl eq_refl)). assert (rsum f l <= rsum g l) by auto. lra. Qed.
Lemma rsum_ge_In {A} (f : A -> R) l x : (forall y, In y l -> 0 <= f y) -> In x l -> f x <= rsum f l.
Proof.
  induction l as [|a t IH]; cbn; [tauto|]. intros H [->|Hx].
  - assert (0 <= rsum f t) by (apply rsum_nonneg; auto). lra.
  - assert (f x <= rsum f t) by auto. pose proof (H a (or_introl eq_refl)). lra.
Qed.
Lemma rsum_pos {A} (f : A -> R) l x : (forall y, In y l -> 0 <= f y) -> In x l -> 0 < f x -> 0 < rsum f l.
Proof. intros H Hx Hp. pose proof (rsum_ge_In f l x H Hx). lra. Qed.
Lemma rsum_Permutation {A} (f : A -> R) l m : Permutation l m -> rsum f l = rsum f m.
Proof. induction 1; cbn; try lra. Qed.
Lemma rsum_map {A B} (f : B -> R) (g : A -> B) l : rsum f (map g l) = rsum (fun x => f (g x)) l.
Proof. induction l; cbn; [reflexivity|]. now rewrite IHl. Qed.
Lemma rsum_filter {A} (f : A -> R) p l : rsum f (filter p l) = rsum (fun x => if p x then f x else 0) l.
Proof. induction l; cbn; [reflexivity|]. destruct (p a); cbn; rewrite IHl; lra. Qed.
Lemma rsum_zero {A} (l : list A) : rsum (fun _ => 0) l = 0.
Proof. rewrite rsum_const. lra. Qed.
Lemma rsum_swap {A B} (f : A -> B -> R) l m :
  rsum (fun x => rsum (fun y => f x y) m) l = rsum (fun y => rsum (fun x => f x y) l) m.
Proof.
  induction l as [|a t IH]; cbn.
  - now rewrite rsum_zero.
  - rewrite IH. symmetry. apply (rsum_plus (fun y => f a y)).
Qed.
Lemma rsum_0_inv {A} (f : A -> R) l : (forall y, In y l -> 0 <= f y) -> rsum f l = 0 -> forall x, In x l -> f x = 0.
Proof. intros H E x Hx. pose proof (rsum_ge_In f l x H Hx). pose proof (H x Hx). lra. Qed.

Lemma rmaxl_In l : l <> [] -> In (rmaxl l) l.
Proof.
  induction l as [|x t IH]; [congruence|]. intros _. destruct t as [|y t]; [cbn; auto|].
  assert (I : In (rmaxl (y :: t)) (y :: t)) by (apply IH; discriminate).
  change (rmaxl (x :: y :: t)) with (Rmax x (rmaxl (y :: t))).
  unfold Rmax. destruct (Rle_dec x (rmaxl (y :: t))); [right; exact I|left; reflexivity].
Qed.
Lemma rmaxl_ge l x : In x l -> x <= rmaxl l.
Proof.
  induction l as [|y t IH]; [intros []|]. intros Hx. destruct t as [|z t].
  - destruct Hx as [->|[]]. apply Rle_refl.
  - change (rmaxl (y :: z :: t)) with (Rmax y (rmaxl (z :: t))). destruct Hx as [->|Hx].
    + apply Rmax_l.
    + eapply Rle_trans; [apply IH, Hx|apply Rmax_r].
Qed.
Lemma rmax_ge {A} (f : A -> R) l x : In x l -> f x <= rmax f l.
Proof. intros H. apply rmaxl_ge, in_map, H. Qed.
Lemma rmax_In {A} (f : A -> R) l : l <> [] -> exists x, In x l /\ rmax f l = f x.
Proof.
  intros H. assert (I : In (rmax f l) (map f l)) by (apply rmaxl_In; destruct l; cbn; congruence).
  apply in_map_iff in I. destruct I as (x & E & Hx). eauto.
Qed.
Lemma rmaxl_unique l m : In m l -> (forall x, In x l -> x <= m) -> rmaxl l = m.
Proof.
  intros Hm Hu. apply Rle_antisym.
  - apply Hu, rmaxl_In. intros ->. exact Hm.
  - now apply rmaxl_ge.
Qed.
Lemma rmaxl_same_set l m : (forall x, In x l <-> In x m) -> rmaxl l = rmaxl m.
Proof.
  intros H. destruct l as [|a t].
  - destruct m as [|b u]; [reflexivity|]. exfalso. apply (H b). now left.
  - symmetry. apply rmaxl_unique.
    + apply H, rmaxl_In. discriminate.
    + intros x Hx. apply rmaxl_ge, H, Hx.
Qed.
Lemma rmax_Permutation {A} (f : A -> R) l m : Permutation l m -> rmax f l = rmax f m.
Proof.
  intros H. apply rmaxl_same_set. intros x.
  split; apply Permutation_in; [|apply Permutation_sym]; now apply Permutation_map.
Qed.
Lemma rmax_ext {A} (f g : A -> R) l : (forall x, In x l -> f x = g x) -> rmax f l = rmax g l.
Proof. intros H. unfold rmax. f_equal. now apply map_ext_in. Qed.
Lemma rmax_scal {A} (f : A -> R) c l : 0 <= c -> rmax (fun x => c * f x) l = c * rmax f l.
Proof.
  intros Hc. destruct l as [|a t]; [cbn; lra|].
  destruct (rmax_In f (a :: t)) as (x & Hx & E); [discriminate|].
  apply rmaxl_unique.
  - apply in_map_iff. exists x. split; [now rewrite E|assumption].
  - intros y Hy. apply in_map_iff in Hy. destruct Hy as (z & <- & Hz).
    apply Rmult_le_compat_l; [assumption|]. now apply rmax_ge.
Qed.
Lemma rmax_pos {A} (f : A -> R) l x : In x l -> 0 < f x -> 0 < rmax f l.
Proof. intros Hx Hp. pose proof (rmax_ge f l x Hx). lra. Qed.

(** folds over XR on finite vectors *)
Lemma xsum_fin {A} (f : A -> R) (l : list A) a :
  fold_left n_add (map (fun x => Fin (f x)) l) (Fin a) = Fin (a + rsum f l).
Proof.
  revert a. induction l as [|x t IH]; intros a; cbn.
  - now rewrite Rplus_0_r.
  - cbn in IH. rewrite IH. f_equal. lra.
Qed.
Lemma vsum_fin {A} (f : A -> R) (l : list A) : vsum (map (fun x => Fin (f x)) l) = Fin (rsum f l).
Proof. etransitivity; [apply (xsum_fin f l 0)|f_equal; lra]. Qed.
Lemma fold_pymax_fin (l : list R) a :
  fold_left (fun m y => if n_ltb m y then y else m) (map Fin l) (Fin a) = Fin (rmaxl (a :: l)).
Proof.
  revert a. induction l as [|x t IH]; intros a; [reflexivity|].
  change (rmaxl (a :: x :: t)) with (Rmax a (rmaxl (x :: t))). cbn [map fold_left].
  assert (E : (if @n_ltb XR (Fin a) (Fin x) then Fin x else Fin a) = Fin (Rmax a x)).
  { cbn. unfold Rmax. destruct (rltb_spec a x); destruct (Rle_dec a x); try reflexivity; f_equal; lra. }
  cbn in *. rewrite E, IH. f_equal. destruct t as [|y t]; [reflexivity|].
  change (rmaxl (Rmax a x :: y :: t)) with (Rmax (Rmax a x) (rmaxl (y :: t))).
  change (rmaxl (x :: y :: t)) with (Rmax x (rmaxl (y :: t))). now rewrite Rmax_assoc.
Qed.
Lemma pymax_fin {A} (f : A -> R) (l : list A) : l <> [] -> pymax (map (fun x => Fin (f x)) l) = Some (Fin (rmax f l)).
Proof.
  destruct l as [|x t]; [congruence|]. intros _. cbn [map pymax]. f_equal.
  rewrite <- (map_map f Fin). apply fold_pymax_fin.
Qed.
Lemma fold_npmax_fin (l : list R) a :
  fold_left (fun m y => if n_eqb m m then (if n_eqb y y then (if n_ltb m y then y else m) else y) else m)
    (map Fin l) (Fin a) = Fin (rmaxl (a :: l)).
Proof.
  rewrite <- fold_pymax_fin. revert a. induction l as [|x t IH]; intros a; [reflexivity|].
  cbn [map fold_left]. cbn. rewrite !reqb_refl. destruct (rltb a x); apply IH.
Qed.
Lemma npmax_fin {A} (f : A -> R) (l : list A) : l <> [] -> npmax (map (fun x => Fin (f x)) l) = Some (Fin (rmax f l)).
Proof.
  destruct l as [|x t]; [congruence|]. intros _. cbn [map npmax]. f_equal.
  rewrite <- (map_map f Fin). apply fold_npmax_fin.
Qed.
