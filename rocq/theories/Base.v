(** Python building blocks used by every model file: decidable label equality, exceptions as values, insertion-ordered
    dictionaries, first-occurrence de-duplication.  No theorem here is a property theorem. *)
From Coq Require Export List Arith ZArith Bool Lia Permutation.
Export ListNotations.

(** Labels and values may be of any hashable type (dataset.py:30-32).  [beq] is Python's [==] on them; labels are
    represented canonically, so that [==] is Leibniz equality (1 and 1.0 and True are one label, as in a Python dict;
    NaN, which is not equal to itself, is not a label). *)
Class Eqb (A : Type) := { beq : A -> A -> bool; beq_spec : forall x y, reflect (x = y) (beq x y) }.

#[export] Instance Eqb_nat : Eqb nat := {| beq := Nat.eqb; beq_spec := Nat.eqb_spec |}.
#[export] Instance Eqb_Z : Eqb Z := {| beq := Z.eqb; beq_spec := Z.eqb_spec |}.

Section EqbLemmas.
  Context {A : Type} {EA : Eqb A}.
  Lemma beq_refl (x : A) : beq x x = true.
  Proof. destruct (beq_spec x x); congruence. Qed.
  Lemma beq_true (x y : A) : beq x y = true <-> x = y.
  Proof. destruct (beq_spec x y); split; congruence. Qed.
  Lemma beq_eq (x y : A) : beq x y = true -> x = y.
  Proof. apply beq_true. Qed.
  Lemma beq_false (x y : A) : beq x y = false <-> x <> y.
  Proof. destruct (beq_spec x y); split; congruence. Qed.
  Lemma beq_neq (x y : A) : x <> y -> beq x y = false.
  Proof. apply beq_false. Qed.
  Lemma beq_sym (x y : A) : beq x y = beq y x.
  Proof. destruct (beq_spec x y), (beq_spec y x); congruence. Qed.
  Definition eq_dec_of (x y : A) : {x = y} + {x <> y}.
  Proof. destruct (beq_spec x y); [left|right]; assumption. Defined.
End EqbLemmas.

Definition pair_beq {A B} `{Eqb A} `{Eqb B} (p q : A * B) : bool := beq (fst p) (fst q) && beq (snd p) (snd q).
#[export] Instance Eqb_pair {A B} `{Eqb A} `{Eqb B} : Eqb (A * B).
Proof.
  refine {| beq := pair_beq |}. intros [a b] [c d]. unfold pair_beq; cbn.
  destruct (beq_spec a c), (beq_spec b d); constructor; congruence.
Defined.

Definition option_beq {A} `{Eqb A} (p q : option A) : bool :=
  match p, q with Some a, Some b => beq a b | None, None => true | _, _ => false end.
#[export] Instance Eqb_option {A} `{Eqb A} : Eqb (option A).
Proof.
  refine {| beq := option_beq |}. intros [a|] [b|]; cbn; try (constructor; congruence).
  destruct (beq_spec a b); constructor; congruence.
Defined.

#[export] Instance Eqb_bool : Eqb bool.
Proof. refine {| beq := Bool.eqb |}. intros [] []; constructor; congruence. Defined.

(** Exceptions as values. *)
Inductive res (E A : Type) := Ok (a : A) | Err (e : E).
Arguments Ok {E A} a. Arguments Err {E A} e.
Definition bind {E A B} (m : res E A) (f : A -> res E B) : res E B :=
  match m with Ok a => f a | Err e => Err e end.
Notation "x <- m ;; k" := (bind m (fun x => k)) (at level 61, m at next level, right associativity).
Notation "' p <- m ;; k" := (bind m (fun p => k)) (at level 61, p pattern, m at next level, right associativity).
Lemma bind_Ok {E A B} (m : res E A) (f : A -> res E B) b :
  bind m f = Ok b -> exists a, m = Ok a /\ f a = Ok b.
Proof. destruct m; cbn; [eauto | discriminate]. Qed.
Lemma bind_ext {E A B} (m : res E A) (f g : A -> res E B) :
  (forall a, m = Ok a -> f a = g a) -> bind m f = bind m g.
Proof. destruct m; cbn; auto. Qed.

Definition res_map {E A B} (f : A -> B) (m : res E A) : res E B :=
  match m with Ok a => Ok (f a) | Err e => Err e end.

Fixpoint mapM {E A B} (f : A -> res E B) (l : list A) : res E (list B) :=
  match l with
  | [] => Ok []
  | x :: t => y <- f x ;; ys <- mapM f t ;; Ok (y :: ys)
  end.
Lemma mapM_ok {E A B} (f : A -> res E B) (g : A -> B) l :
  (forall x, In x l -> f x = Ok (g x)) -> mapM f l = Ok (map g l).
Proof.
  induction l as [|x t IH]; cbn; intros H; [reflexivity|].
  rewrite (H x) by auto. cbn. rewrite IH by auto. reflexivity.
Qed.

(** Membership test ([in] on Python lists/sets). *)
Definition mem {A} `{Eqb A} (x : A) (l : list A) : bool := existsb (beq x) l.
Lemma mem_In {A} `{Eqb A} (x : A) l : mem x l = true <-> In x l.
Proof.
  unfold mem. rewrite existsb_exists. split.
  - intros (y & Hy & E). apply beq_eq in E. now subst.
  - intros Hx. exists x. split; [assumption|apply beq_refl].
Qed.
Lemma mem_false {A} `{Eqb A} (x : A) l : mem x l = false <-> ~ In x l.
Proof. rewrite <- mem_In. destruct (mem x l); split; congruence. Qed.
Lemma mem_app {A} `{Eqb A} (x : A) l m : mem x (l ++ m) = mem x l || mem x m.
Proof. apply existsb_app. Qed.

(** The distinct elements of a list, in order of first occurrence. *)
Section Distinct.
  Context {A : Type} {EA : Eqb A}.
  Fixpoint distinct (l : list A) : list A :=
    match l with
    | [] => []
    | x :: t => x :: filter (fun y => negb (beq x y)) (distinct t)
    end.
  Lemma distinct_In x l : In x (distinct l) <-> In x l.
  Proof.
    induction l as [|y t IH]; cbn; [tauto|]. rewrite filter_In, IH.
    destruct (beq_spec y x) as [E|N]; cbn; intuition auto.
  Qed.
  Lemma distinct_NoDup l : NoDup (distinct l).
  Proof.
    induction l as [|y t IH]; cbn; constructor.
    - rewrite filter_In, beq_refl. cbn. intuition discriminate.
    - apply NoDup_filter, IH.
  Qed.
  Lemma filter_all (P : A -> bool) l : (forall x, In x l -> P x = true) -> filter P l = l.
  Proof.
    induction l as [|x t IH]; cbn; intros HP; [reflexivity|].
    rewrite (HP x) by auto. f_equal. apply IH. auto.
  Qed.
  Lemma distinct_snoc l x : distinct (l ++ [x]) = if mem x l then distinct l else distinct l ++ [x].
  Proof.
    induction l as [|y t IH]; cbn [distinct app]; [reflexivity|].
    rewrite IH. unfold mem. cbn [existsb]. change (existsb (beq x) t) with (mem x t).
    destruct (beq_spec x y) as [->|N]; cbn [orb].
    - destruct (mem y t) eqn:E; [reflexivity|].
      rewrite filter_app. cbn [filter]. rewrite beq_refl. cbn. now rewrite app_nil_r.
    - destruct (mem x t); [reflexivity|].
      rewrite filter_app. cbn [filter]. rewrite (beq_neq y x) by congruence. reflexivity.
  Qed.
  Lemma distinct_NoDup_id l : NoDup l -> distinct l = l.
  Proof.
    induction 1 as [|x t Hx Ht IH]; cbn; [reflexivity|]. rewrite IH. f_equal.
    apply filter_all. intros y Hy. destruct (beq_spec x y); [congruence|reflexivity].
  Qed.
  Lemma distinct_app_prefix l m : exists r, distinct (l ++ m) = distinct l ++ r.
  Proof.
    revert l. induction m as [|x m IH]; intros l.
    - exists []. now rewrite !app_nil_r.
    - replace (l ++ x :: m) with ((l ++ [x]) ++ m) by now rewrite <- app_assoc.
      destruct (IH (l ++ [x])) as [r Hr]. rewrite Hr, distinct_snoc.
      destruct (mem x l); [eauto|]. exists (x :: r). now rewrite <- app_assoc.
  Qed.
End Distinct.

(** Position of an element in a list. *)
Section Pos.
  Context {A : Type} {EA : Eqb A}.
  Fixpoint pos (x : A) (l : list A) : nat :=
    match l with [] => 0 | y :: t => if beq x y then 0 else S (pos x t) end.
  Lemma pos_lt x l : In x l -> pos x l < length l.
  Proof.
    induction l as [|y t IH]; cbn; [tauto|]. intros Hx.
    destruct (beq_spec x y) as [|N]; [lia|]. assert (In x t) by (destruct Hx; congruence).
    specialize (IH H). lia.
  Qed.
  Lemma nth_error_pos x l : In x l -> nth_error l (pos x l) = Some x.
  Proof.
    induction l as [|y t IH]; cbn; [tauto|]. intros Hx.
    destruct (beq_spec x y) as [->|N]; cbn; [reflexivity|]. apply IH. destruct Hx; congruence.
  Qed.
  Lemma pos_nth_error l i x : NoDup l -> nth_error l i = Some x -> pos x l = i.
  Proof.
    revert i. induction l as [|y t IH]; intros [|i] ND H; cbn in *; try discriminate.
    - injection H as ->. now rewrite beq_refl.
    - inversion ND as [|? ? Hy Ht]; subst. destruct (beq_spec x y) as [->|N].
      + apply nth_error_In in H. contradiction.
      + f_equal. now apply IH.
  Qed.
  Lemma pos_app x l m : In x l -> pos x (l ++ m) = pos x l.
  Proof.
    induction l as [|y t IH]; cbn; [tauto|]. intros Hx.
    destruct (beq_spec x y); [reflexivity|]. f_equal. apply IH. destruct Hx; congruence.
  Qed.
  Lemma pos_app_not x l m : ~ In x l -> pos x (l ++ m) = length l + pos x m.
  Proof.
    induction l as [|y t IH]; cbn; [reflexivity|]. intros Hx.
    destruct (beq_spec x y) as [->|N]; [tauto|]. f_equal. apply IH. tauto.
  Qed.
  Lemma pos_inj x y l : In x l -> In y l -> pos x l = pos y l -> x = y.
  Proof.
    intros Hx Hy E. pose proof (nth_error_pos _ _ Hx) as H1. pose proof (nth_error_pos _ _ Hy) as H2.
    rewrite E in H1. congruence.
  Qed.
End Pos.

(** Python dictionaries: association lists in insertion order. *)
Section Dict.
  Context {K X : Type} {EK : Eqb K}.
  Definition dict := list (K * X).
  Fixpoint dget (d : dict) (k : K) : option X :=
    match d with [] => None | (k', v) :: t => if beq k k' then Some v else dget t k end.
  (* d[k] = v : overwrite in place, or append *)
  Fixpoint dset (d : dict) (k : K) (v : X) : dict :=
    match d with
    | [] => [(k, v)]
    | (k', v') :: t => if beq k k' then (k', v) :: t else (k', v') :: dset t k v
    end.
  Definition dkeys (d : dict) : list K := map fst d.
  Definition dmem (d : dict) (k : K) : bool := mem k (dkeys d).
  Definition dict_of (l : list (K * X)) : dict := fold_left (fun d kv => dset d (fst kv) (snd kv)) l [].

  Lemma dget_dset d k v k' : dget (dset d k v) k' = if beq k' k then Some v else dget d k'.
  Proof.
    induction d as [|[a b] t IH]; cbn.
    - destruct (beq k' k); reflexivity.
    - destruct (beq_spec k a) as [->|N]; cbn.
      + destruct (beq_spec k' a); reflexivity.
      + rewrite IH. destruct (beq_spec k' a) as [->|N']; [|reflexivity].
        rewrite (beq_neq a k) by congruence. reflexivity.
  Qed.
  Lemma dkeys_dset d k v : dkeys (dset d k v) = if dmem d k then dkeys d else dkeys d ++ [k].
  Proof.
    unfold dmem. induction d as [|[a b] t IH]; cbn; [reflexivity|].
    unfold mem; cbn. destruct (beq_spec k a) as [->|N]; cbn; [reflexivity|].
    change (existsb (beq k) (map fst t)) with (mem k (dkeys t)).
    unfold dkeys in *. rewrite IH. destruct (mem k (map fst t)); reflexivity.
  Qed.
  Lemma dget_None d k : dget d k = None <-> ~ In k (dkeys d).
  Proof.
    induction d as [|[a b] t IH]; cbn; [tauto|].
    destruct (beq_spec k a) as [->|N]; [split; [discriminate|tauto]|].
    rewrite IH. unfold dkeys. intuition congruence.
  Qed.
  Lemma dget_In d k v : dget d k = Some v -> In (k, v) d.
  Proof.
    induction d as [|[a b] t IH]; cbn; [discriminate|].
    destruct (beq_spec k a) as [->|N]; [injection 1 as ->; auto|auto].
  Qed.
  Lemma In_dget d k v : NoDup (dkeys d) -> In (k, v) d -> dget d k = Some v.
  Proof.
    induction d as [|[a b] t IH]; cbn; [tauto|]. intros ND [E|Hin].
    - injection E as -> ->. now rewrite beq_refl.
    - inversion ND as [|? ? Hn Ht]; subst. destruct (beq_spec k a) as [->|N].
      + exfalso. apply Hn. apply in_map_iff. now exists (a, v).
      + auto.
  Qed.
  Lemma dset_NoDup d k v : NoDup (dkeys d) -> NoDup (dkeys (dset d k v)).
  Proof.
    intros ND. rewrite dkeys_dset. destruct (dmem d k) eqn:E; [assumption|].
    apply mem_false in E. apply NoDup_Add with (a := k) (l := dkeys d).
    - rewrite <- (app_nil_r (dkeys d)) at 1. apply Add_app.
    - split; assumption.
  Qed.
  Lemma dset_new d k v : ~ In k (dkeys d) -> dset d k v = d ++ [(k, v)].
  Proof.
    induction d as [|[a b] t IH]; cbn; [reflexivity|]. intros Hn.
    destruct (beq_spec k a) as [->|N]; [tauto|]. f_equal. apply IH. tauto.
  Qed.
  Lemma fold_dset_NoDup l d :
    NoDup (dkeys d) -> NoDup (dkeys (fold_left (fun d kv => dset d (fst kv) (snd kv)) l d)).
  Proof.
    revert d. induction l as [|[k v] t IH]; cbn; intros d ND; [assumption|].
    apply IH, dset_NoDup, ND.
  Qed.
  Lemma dict_of_NoDup l : NoDup (dkeys (dict_of l)).
  Proof. apply fold_dset_NoDup. constructor. Qed.
  Lemma fold_dset_app l d :
    NoDup (dkeys d ++ map fst l) ->
    fold_left (fun d kv => dset d (fst kv) (snd kv)) l d = d ++ l.
  Proof.
    revert d. induction l as [|[k v] t IH]; cbn; intros d ND; [now rewrite app_nil_r|].
    rewrite dset_new.
    - rewrite IH; [now rewrite <- app_assoc|]. unfold dkeys in *. rewrite map_app, <- app_assoc. exact ND.
    - apply NoDup_remove_2 in ND. rewrite in_app_iff in ND. tauto.
  Qed.
  (** A dict built from pairs with pairwise distinct keys is that list of pairs. *)
  Lemma dict_of_distinct l : NoDup (map fst l) -> dict_of l = l.
  Proof. intros ND. unfold dict_of. now rewrite fold_dset_app. Qed.
  Lemma dict_ext (d d' : dict) : NoDup (dkeys d) -> dkeys d = dkeys d' ->
    (forall k, In k (dkeys d) -> dget d k = dget d' k) -> d = d'.
  Proof.
    revert d'. induction d as [|[a b] t IH]; intros [|[a' b'] t']; cbn; try discriminate; [reflexivity|].
    intros ND E Hg. injection E as -> Ek. inversion ND as [|? ? Hn Ht]; subst.
    pose proof (Hg a' (or_introl eq_refl)) as H0. rewrite !beq_refl in H0. injection H0 as ->.
    f_equal. apply IH; [assumption|assumption|]. intros k Hk.
    specialize (Hg k (or_intror Hk)). rewrite (beq_neq k a') in Hg by (intros ->; contradiction).
    exact Hg.
  Qed.
End Dict.
Arguments dict K X : clear implicits.

(** enumerate *)
Fixpoint enum_from {A} (i : nat) (l : list A) : list (nat * A) :=
  match l with [] => [] | x :: t => (i, x) :: enum_from (S i) t end.
Definition enumerate {A} (l : list A) := enum_from 0 l.

Lemma enum_from_app {A} i (l m : list A) : enum_from i (l ++ m) = enum_from i l ++ enum_from (i + length l) m.
Proof.
  revert i. induction l as [|x t IH]; cbn; intros i; [now rewrite Nat.add_0_r|].
  rewrite IH. replace (i + S (length t)) with (S i + length t) by lia. reflexivity.
Qed.
Lemma enum_from_In {A} i (l : list A) j x : In (j, x) (enum_from i l) <-> i <= j /\ nth_error l (j - i) = Some x.
Proof.
  revert i. induction l as [|y t IH]; cbn; intros i.
  - split; [tauto|]. destruct (j - i); intros [_ H]; discriminate.
  - rewrite IH. split.
    + intros [E|[Hle Hn]].
      * injection E as -> ->. rewrite Nat.sub_diag. auto.
      * split; [lia|]. destruct (j - i) as [|k] eqn:E; [lia|]. cbn. replace k with (j - S i) by lia. assumption.
    + intros [Hle Hn]. destruct (j - i) as [|k] eqn:E; cbn in Hn.
      * left. injection Hn as ->. f_equal. lia.
      * right. split; [lia|]. replace (j - S i) with k by lia. assumption.
Qed.
Lemma enumerate_In {A} (l : list A) j x : In (j, x) (enumerate l) <-> nth_error l j = Some x.
Proof. unfold enumerate. rewrite enum_from_In, Nat.sub_0_r. intuition lia. Qed.
Lemma map_fst_enum_from {A} i (l : list A) : map fst (enum_from i l) = seq i (length l).
Proof. revert i. induction l as [|x t IH]; cbn; intros i; [reflexivity|]. f_equal. apply IH. Qed.
Lemma map_snd_enum_from {A} i (l : list A) : map snd (enum_from i l) = l.
Proof. revert i. induction l as [|x t IH]; cbn; intros i; [reflexivity|]. f_equal. apply IH. Qed.

(** zip with *)
Fixpoint zipw {A B C} (f : A -> B -> C) (l : list A) (m : list B) : list C :=
  match l, m with x :: l', y :: m' => f x y :: zipw f l' m' | _, _ => [] end.
Lemma zipw_map {A B C D} (f : B -> C -> D) (g : A -> B) (h : A -> C) l :
  zipw f (map g l) (map h l) = map (fun x => f (g x) (h x)) l.
Proof. induction l as [|x t IH]; cbn; [reflexivity|]. now rewrite IH. Qed.
Lemma zipw_length {A B C} (f : A -> B -> C) l m : length l = length m -> length (zipw f l m) = length l.
Proof. revert m. induction l as [|x t IH]; intros [|y m]; cbn; intros E; try congruence. f_equal. apply IH. lia. Qed.

(** misc list facts *)
Lemma map_nth_error_seq {A} (l : list A) (d : A) : map (fun i => nth i l d) (seq 0 (length l)) = l.
Proof.
  induction l as [|x t IH]; cbn; [reflexivity|]. f_equal. rewrite <- seq_shift, map_map. exact IH.
Qed.
Lemma map_seq_nth {A B} (f : nat -> B) (g : A -> B) (l : list A) :
  (forall i x, nth_error l i = Some x -> f i = g x) -> map f (seq 0 (length l)) = map g l.
Proof.
  revert f. induction l as [|x t IH]; cbn; intros f Hf; [reflexivity|].
  rewrite (Hf 0 x) by reflexivity. f_equal. rewrite <- seq_shift, map_map. apply IH.
  intros i y Hy. apply (Hf (S i)). exact Hy.
Qed.
Lemma filter_seq_nth {A B} (p : nat -> bool) (f : nat -> B) (q : A -> bool) (g : A -> B) (l : list A) :
  (forall i x, nth_error l i = Some x -> p i = q x) ->
  (forall i x, nth_error l i = Some x -> q x = true -> f i = g x) ->
  map f (filter p (seq 0 (length l))) = map g (filter q l).
Proof.
  revert p f. induction l as [|x t IH]; cbn; intros p f Hp Hf; [reflexivity|].
  rewrite (Hp 0 x) by reflexivity.
  assert (E : map f (filter p (seq 1 (length t))) = map g (filter q t)).
  { rewrite <- seq_shift. rewrite <- (IH (fun i => p (S i)) (fun i => f (S i))).
    - clear. induction (seq 0 (length t)) as [|i s IHs]; cbn; [reflexivity|].
      destruct (p (S i)); cbn; now rewrite IHs.
    - intros i y Hy. apply (Hp (S i)). exact Hy.
    - intros i y Hy. apply (Hf (S i)). exact Hy. }
  destruct (q x) eqn:Q; cbn; [rewrite (Hf 0 x) by (reflexivity || assumption)|]; now rewrite E.
Qed.
Lemma nth_error_nth_eq {A} (l : list A) i x d : nth_error l i = Some x -> nth i l d = x.
Proof. revert i. induction l as [|y t IH]; intros [|i]; cbn; try discriminate; [congruence|apply IH]. Qed.
Lemma NoDup_map_inj {A B} (f : A -> B) l :
  (forall x y, In x l -> In y l -> f x = f y -> x = y) -> NoDup l -> NoDup (map f l).
Proof.
  intros Hf. induction 1 as [|x t Hx Ht IH]; cbn; constructor.
  - rewrite in_map_iff. intros (y & E & Hy). apply Hx. rewrite <- (Hf y x); cbn; auto.
  - apply IH. intros a b Ha Hb. apply Hf; cbn; auto.
Qed.
Lemma NoDup_snoc {A} (l : list A) a : NoDup l -> ~ In a l -> NoDup (l ++ [a]).
Proof.
  intros H N. apply NoDup_Add with (a := a) (l := l); [|now split].
  rewrite <- (app_nil_r l) at 1. apply Add_app.
Qed.
