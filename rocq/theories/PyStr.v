(** Python strings: lists of Unicode code points, with the string methods the library uses. *)
From Coq Require Import NArith String Ascii.
From Verif Require Import Base.

Definition pychar := N.
Definition pystr := list pychar.
#[export] Instance Eqb_N : Eqb N := {| beq := N.eqb; beq_spec := N.eqb_spec |}.
#[export] Instance Eqb_list {A} `{Eqb A} : Eqb (list A).
Proof.
  refine {| beq := fix go (l m : list A) := match l, m with [], [] => true | x :: l', y :: m' => beq x y && go l' m' | _, _ => false end |}.
  intros l. induction l as [|x l IH]; intros [|y m]; try (constructor; congruence).
  destruct (beq_spec x y) as [->|N]; cbn; [|constructor; congruence].
  destruct (IH m) as [->|N]; constructor; congruence.
Defined.
(** a string literal of the source text (all of them are ASCII) *)
Fixpoint lit_str (s : string) : pystr := match s with EmptyString => [] | String c t => N_of_ascii c :: lit_str t end.

(** the characters for which Python's str.isspace() holds: what str.strip() removes *)
Definition is_space (c : pychar) : bool :=
  ((9 <=? c) && (c <=? 13) || (28 <=? c) && (c <=? 32) || (c =? 133) || (c =? 160) || (c =? 5760) || (8192 <=? c) && (c <=? 8202)
   || (c =? 8232) || (c =? 8233) || (c =? 8239) || (c =? 8287) || (c =? 12288))%N.
Definition newline : pychar := 10%N.
Definition comma : pychar := 44%N.

Fixpoint lstrip (s : pystr) : pystr := match s with [] => [] | c :: t => if is_space c then lstrip t else s end.
Definition rstrip (s : pystr) : pystr := rev (lstrip (rev s)).
(** str.strip() *)
Definition strip (s : pystr) : pystr := rstrip (lstrip s).
(** s.split(sep) for a one-character separator: always at least one part *)
Fixpoint split_on (sep : pychar) (s : pystr) : list pystr :=
  match s with
  | [] => [[]]
  | c :: t =>
      if beq c sep then [] :: split_on sep t
      else match split_on sep t with p :: ps => (c :: p) :: ps | [] => [[c]] end
  end.
(** sep.join(parts) *)
Fixpoint join (sep : pystr) (parts : list pystr) : pystr :=
  match parts with [] => [] | [p] => p | p :: ps => p ++ sep ++ join sep ps end.

(** ** Facts *)
Lemma split_on_nonempty sep s : split_on sep s <> [].
Proof. destruct s as [|c t]; cbn; [discriminate|]. destruct (N.eqb c sep); [discriminate|]. destruct (split_on sep t); discriminate. Qed.
Lemma split_on_app_sep sep p s : ~ In sep p -> split_on sep (p ++ sep :: s) = p :: split_on sep s.
Proof.
  induction p as [|c p IH]; intros H; cbn [app split_on].
  - change (N.eqb sep sep) with (beq sep sep). now rewrite beq_refl.
  - rewrite (beq_neq c sep) by (intros ->; apply H; now left). rewrite IH by (intros Hin; apply H; now right). reflexivity.
Qed.
Lemma split_on_none sep p : ~ In sep p -> split_on sep p = [p].
Proof.
  induction p as [|c p IH]; intros H; cbn [split_on]; [reflexivity|].
  rewrite (beq_neq c sep) by (intros ->; apply H; now left). rewrite IH by (intros Hin; apply H; now right). reflexivity.
Qed.
Lemma split_join sep parts : parts <> [] -> (forall p, In p parts -> ~ In sep p) -> split_on sep (join [sep] parts) = parts.
Proof.
  induction parts as [|p ps IH]; intros NE H; [congruence|]. destruct ps as [|q ps].
  - cbn [join]. apply split_on_none. apply H. now left.
  - change (join [sep] (p :: q :: ps)) with (p ++ sep :: join [sep] (q :: ps)).
    rewrite split_on_app_sep by (apply H; now left). f_equal. apply IH; [discriminate|]. intros r Hr. apply H. now right.
Qed.
Lemma join_split sep s : join [sep] (split_on sep s) = s.
Proof.
  induction s as [|c t IH]; [reflexivity|]. cbn [split_on]. destruct (beq_spec c sep) as [->|N].
  - pose proof (split_on_nonempty sep t). destruct (split_on sep t) as [|p ps]; [congruence|].
    change (join [sep] ([] :: p :: ps)) with (sep :: join [sep] (p :: ps)). now rewrite IH.
  - pose proof (split_on_nonempty sep t). destruct (split_on sep t) as [|p [|q ps]]; [congruence| |].
    + cbn in *. now rewrite IH.
    + change (join [sep] ((c :: p) :: q :: ps)) with (c :: join [sep] (p :: q :: ps)). now rewrite IH.
Qed.
Lemma split_on_parts sep s p : In p (split_on sep s) -> ~ In sep p.
Proof.
  revert p. induction s as [|c t IH]; intros p; cbn [split_on].
  - intros [<-|[]] [].
  - destruct (beq_spec c sep) as [->|N].
    + intros [<-|H]; [intros []|now apply IH].
    + pose proof (split_on_nonempty sep t). destruct (split_on sep t) as [|q ps]; [congruence|].
      intros [<-|H']; [|apply IH; now right]. intros [E|Hin]; [congruence|]. apply (IH q); [now left|exact Hin].
Qed.

(** strip removes exactly the white space at both ends *)
Definition all_space (s : pystr) : Prop := forall c, In c s -> is_space c = true.
Definition no_edge_space (s : pystr) : Prop :=
  match s with [] => True | c :: _ => is_space c = false end /\ match rev s with [] => True | c :: _ => is_space c = false end.
Lemma lstrip_decomp s : exists a, all_space a /\ s = a ++ lstrip s /\ match lstrip s with [] => True | c :: _ => is_space c = false end.
Proof.
  induction s as [|c t (a & Ha & E & H)]; [exists []; cbn; repeat split; intros ? []|]. cbn [lstrip]. destruct (is_space c) eqn:Ec.
  - exists (c :: a). split; [|split]; [intros x [<-|Hx]; auto|cbn; now rewrite <- E|exact H].
  - exists []. split; [|split]; [intros ? []|reflexivity|exact Ec].
Qed.
Lemma strip_decomp s : exists a b, all_space a /\ all_space b /\ s = a ++ strip s ++ b /\ no_edge_space (strip s).
Proof.
  destruct (lstrip_decomp s) as (a & Ha & E & H). destruct (lstrip_decomp (rev (lstrip s))) as (b & Hb & E' & H').
  exists a, (rev b). unfold strip, rstrip. assert (Er : lstrip s = rev (lstrip (rev (lstrip s))) ++ rev b).
  { rewrite <- rev_app_distr, <- E', rev_involutive. reflexivity. }
  split; [exact Ha|]. split; [intros c Hc; apply Hb; now apply in_rev|]. split; [now rewrite <- Er|].
  split; [|now rewrite rev_involutive]. destruct (rev (lstrip (rev (lstrip s)))) as [|c t] eqn:Ec; [exact I|]. rewrite Er in H. exact H.
Qed.
Lemma lstrip_space a s : all_space a -> lstrip (a ++ s) = lstrip s.
Proof. induction a as [|c a IH]; intros H; [reflexivity|]. cbn [app lstrip]. rewrite (H c (or_introl eq_refl)). apply IH. intros x Hx. apply H. now right. Qed.
Lemma lstrip_id s : match s with [] => True | c :: _ => is_space c = false end -> lstrip s = s.
Proof. destruct s as [|c t]; [reflexivity|]. cbn. intros ->. reflexivity. Qed.
Lemma rev_hd_app (s b : pystr) : s <> [] -> hd_error (s ++ b) = hd_error s.
Proof. destruct s; [congruence|reflexivity]. Qed.
Lemma strip_unique a t b : all_space a -> all_space b -> no_edge_space t -> strip (a ++ t ++ b) = t.
Proof.
  intros Ha Hb [H1 H2]. unfold strip, rstrip. rewrite (lstrip_space a _ Ha). destruct t as [|c t].
  - cbn [app]. assert (E : lstrip b = []) by (pose proof (lstrip_space b [] Hb) as Q; now rewrite app_nil_r in Q). rewrite E. reflexivity.
  - rewrite (lstrip_id ((c :: t) ++ b)) by exact H1. rewrite rev_app_distr, lstrip_space by (intros x Hx; apply Hb; now apply in_rev in Hx).
    rewrite lstrip_id by exact H2. apply rev_involutive.
Qed.
Lemma strip_id t : no_edge_space t -> strip t = t.
Proof. intros H. pose proof (strip_unique [] t [] ltac:(intros ? []) ltac:(intros ? []) H) as Q. now rewrite app_nil_r in Q. Qed.
Lemma strip_all_space s : all_space s -> strip s = [].
Proof. intros H. pose proof (strip_unique s [] [] H ltac:(intros ? []) (conj I I)) as Q. cbn in Q. now rewrite app_nil_r in Q. Qed.
Lemma strip_nil_iff s : strip s = [] <-> all_space s.
Proof.
  split; [|apply strip_all_space]. intros E. destruct (strip_decomp s) as (a & b & Ha & Hb & Es & _). rewrite E in Es. cbn in Es. rewrite Es.
  intros c Hc. apply in_app_or in Hc. destruct Hc; auto.
Qed.
Lemma strip_idem s : strip (strip s) = strip s.
Proof. apply strip_id. destruct (strip_decomp s) as (a & b & _ & _ & _ & H). exact H. Qed.
