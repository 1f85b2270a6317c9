(** The fragment of Python's re module used by client/base.py:94-98: literals, + on a character class, ?, groups and $,
    matched greedily with backtracking from the start of the string (re.match). *)
From Verif Require Import Base PyStr.

Inductive rx :=
| RLit (s : pystr)                    (* literal text *)
| RPlus (p : pychar -> bool)          (* [class]+, greedy *)
| RSeq (a b : rx)
| ROpt (a : rx)                       (* (...)?, greedy *)
| RGroup (n : nat) (a : rx)           (* a capturing group *)
| REnd.                               (* $ without re.MULTILINE: at the end, or before a newline that ends the string *)

Definition caps := list (nat * pystr).

Section Matcher.
  Context {A : Type}.
  (* literal text; the continuation gets the rest of the string *)
  Fixpoint m_lit (l s : pystr) (k : pystr -> option A) : option A :=
    match l, s with
    | [], _ => k s
    | c :: l', x :: s' => if beq c x then m_lit l' s' k else None
    | _ :: _, [] => None
    end.
  (* as many characters of the class as possible, fewer if the rest of the pattern then fails *)
  Fixpoint m_star (p : pychar -> bool) (s : pystr) (k : pystr -> option A) : option A :=
    match s with
    | [] => k []
    | c :: t => if p c then match m_star p t k with Some a => Some a | None => k s end else k s
    end.
  Fixpoint m_rx (r : rx) (s : pystr) (cp : caps) (k : pystr -> caps -> option A) : option A :=
    match r with
    | RLit l => m_lit l s (fun t => k t cp)
    | RPlus p => match s with c :: t => if p c then m_star p t (fun u => k u cp) else None | [] => None end
    | RSeq a b => m_rx a s cp (fun t cp' => m_rx b t cp' k)
    | ROpt a => match m_rx a s cp k with Some x => Some x | None => k s cp end
    | RGroup n a => m_rx a s cp (fun t cp' => k t ((n, firstn (length s - length t) s) :: cp'))
    | REnd => match s with [] => k s cp | [c] => if beq c newline then k s cp else None | _ => None end
    end.
End Matcher.
(** regex.match(s): the captured groups *)
Definition re_match (r : rx) (s : pystr) : option caps := m_rx r s [] (fun _ cp => Some cp).
Definition group (cp : caps) (n : nat) : option pystr := dget cp n.

(** ** Facts *)
Lemma m_lit_spec {A} l s (k : pystr -> option A) a : m_lit l s k = Some a <-> exists t, s = l ++ t /\ k t = Some a.
Proof.
  revert s. induction l as [|c l IH]; intros s; cbn [m_lit app].
  - split; [intros H; now exists s|]. intros (t & -> & H). exact H.
  - destruct s as [|x s]; [split; [discriminate|intros (t & E & _); discriminate]|].
    destruct (beq_spec c x) as [->|N].
    + rewrite IH. split; [intros (t & -> & H); now exists t|]. intros (t & [= ->] & H). now exists t.
    + split; [discriminate|]. intros (t & [= <- _] & _). congruence.
Qed.
(** when the continuation rejects every string that starts with a character of the class, there is no backtracking: the
    longest run is taken *)
Definition run_of (p : pychar -> bool) (r t : pystr) : Prop := (forall c, In c r -> p c = true) /\ match t with [] => True | c :: _ => p c = false end.
Lemma run_of_unique p r t r' t' : r ++ t = r' ++ t' -> run_of p r t -> run_of p r' t' -> r = r' /\ t = t'.
Proof.
  revert r'. induction r as [|c r IH]; intros r' E [H1 H2] [H1' H2'].
  - destruct r' as [|c' r']; [auto|]. cbn in E. subst t. cbn in H2. rewrite (H1' c' (or_introl eq_refl)) in H2. discriminate.
  - destruct r' as [|c' r']; cbn in E.
    + subst t'. cbn in H2'. rewrite (H1 c (or_introl eq_refl)) in H2'. discriminate.
    + injection E as -> E. destruct (IH r' E) as [-> ->]; [split; [intros x Hx; apply H1; now right|assumption]|split; [intros x Hx; apply H1'; now right|assumption]|]. auto.
Qed.
Lemma run_of_exists p s : exists r t, s = r ++ t /\ run_of p r t.
Proof.
  induction s as [|c s (r & t & E & H1 & H2)]; [exists [], []; repeat split; intros ? []|]. destruct (p c) eqn:Ep.
  - exists (c :: r), t. split; [cbn; now rewrite <- E|]. split; [intros x [<-|Hx]; auto|exact H2].
  - exists [], (c :: s). split; [reflexivity|]. split; [intros ? []|exact Ep].
Qed.
Lemma m_star_longest {A} p r t (k : pystr -> option A) : run_of p r t -> (forall c u, p c = true -> k (c :: u) = None) -> m_star p (r ++ t) k = k t.
Proof.
  intros [H1 H2] Hk. induction r as [|c r IH]; cbn [app].
  - destruct t as [|c t]; [reflexivity|]. cbn [m_star]. now rewrite H2.
  - cbn [m_star]. rewrite (H1 c (or_introl eq_refl)). rewrite IH by (intros x Hx; apply H1; now right).
    destruct (k t); [reflexivity|]. apply Hk. apply H1. now left.
Qed.
Lemma m_plus_longest {A} p s (k : pystr -> caps -> option A) cp a : (forall c u cp, p c = true -> k (c :: u) cp = None) ->
  (m_rx (RPlus p) s cp k = Some a <-> exists r t, s = r ++ t /\ r <> [] /\ run_of p r t /\ k t cp = Some a).
Proof.
  intros Hk. cbn [m_rx]. destruct s as [|c s]; [split; [discriminate|intros (r & t & E & NE & _); destruct r; [congruence|discriminate]]|]. destruct (p c) eqn:Ep.
  - destruct (run_of_exists p s) as (r & t & -> & H). rewrite (m_star_longest p r t) by (auto). split.
    + intros E. exists (c :: r), t. split; [reflexivity|]. split; [discriminate|]. split; [|exact E]. destruct H as [H1 H2]. split; [intros x [<-|Hx]; auto|exact H2].
    + intros (r' & t' & E & NE & H' & Ek). destruct r' as [|c' r']; [congruence|]. injection E as <- E. destruct (run_of_unique p r t r' t' E H) as [-> ->]; [|exact Ek].
      destruct H' as [H1 H2]. split; [intros x Hx; apply H1; now right|exact H2].
  - split; [discriminate|]. intros (r & t & E & NE & H' & _). destruct r as [|c' r]; [congruence|]. injection E as <- _. destruct H' as [H1 _]. rewrite (H1 c (or_introl eq_refl)) in Ep. discriminate.
Qed.
Lemma m_end_spec {A} s cp (k : pystr -> caps -> option A) a : m_rx REnd s cp k = Some a <-> (s = [] \/ s = [newline]) /\ k s cp = Some a.
Proof.
  cbn [m_rx]. destruct s as [|c [|c' s]].
  - split; [intros H; auto|intros [_ H]; exact H].
  - destruct (beq_spec c newline) as [->|N]; [split; [intros H; auto|intros [_ H]; exact H]|]. split; [discriminate|]. intros [[H|[= H]] _]; [discriminate|contradiction].
  - split; [discriminate|]. intros [[H|H] _]; discriminate.
Qed.
Lemma firstn_prefix {B} (r t : list B) : firstn (length (r ++ t) - length t) (r ++ t) = r.
Proof. rewrite app_length. replace (length r + length t - length t) with (length r) by lia. rewrite firstn_app, Nat.sub_diag, firstn_all. cbn. apply app_nil_r. Qed.
Lemma m_star_longest' {A} p r t (k : pystr -> option A) : run_of p r t ->
  (k t <> None \/ forall c u, (exists v, r = v ++ c :: u) -> k (c :: u ++ t) = None) -> m_star p (r ++ t) k = k t.
Proof.
  intros [H1 H2] Hk. induction r as [|c r IH]; cbn [app].
  - destruct t as [|c t]; [reflexivity|]. cbn [m_star]. now rewrite H2.
  - cbn [m_star]. rewrite (H1 c (or_introl eq_refl)). rewrite IH.
    + destruct (k t) eqn:E; [reflexivity|]. destruct Hk as [Hk|Hk]; [congruence|]. apply Hk. now exists [].
    + intros x Hx. apply H1. now right.
    + destruct Hk as [Hk|Hk]; [now left|]. right. intros c' u [v ->]. apply Hk. now exists (c :: v).
Qed.
