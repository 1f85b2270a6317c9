(** Property theorems about results: C17 (most believed values), C18 (filtering), C19 (differences), C20 (statistics). *)
From Coq Require Import Reals Lra.
From Flocq Require Import IEEE754.BinarySingleNaN.
From Verif Require Import Base Num Spec SpecAlg Dataset Iterators Algorithms Ranking Results Float.

(** negation reverses the order of comparable numbers *)
Class OrdOpp (F : Num) (good : F -> Prop) := {
  oo_good : forall x, good x -> good (n_opp x);
  oo_ltb : forall x y, good x -> good y -> n_ltb (n_opp x) (n_opp y) = n_ltb y x
}.
#[global] Instance XR_Opp : OrdOpp XR (fun x => x <> NaN).
Proof.
  split; cbn.
  - intros [r| | |]; cbn; congruence.
  - intros [a| | |] [b| | |] Ha Hb; cbn; try congruence; try contradiction.
    destruct (rltb_spec (- a) (- b)), (rltb_spec b a); try reflexivity; lra.
Qed.
#[global] Instance B64_Opp L : OrdOpp (B64 L) (fun x : b64 => is_nan x = false).
Proof.
  split; cbn.
  - intros x Hx. now rewrite is_nan_Bopp.
  - intros x y Hx Hy. destruct (is_finite x && is_finite y) eqn:E.
    + apply andb_true_iff in E. destruct E as [Ex Ey].
      assert (Ix : isf x (B2R64 x)) by (split; auto). assert (Iy : isf y (B2R64 y)) by (split; auto).
      assert (Jx : isf (Bopp x) (- B2R64 x)) by (split; [now rewrite is_finite_Bopp|apply B2R_Bopp]).
      assert (Jy : isf (Bopp y) (- B2R64 y)) by (split; [now rewrite is_finite_Bopp|apply B2R_Bopp]).
      rewrite (ltb64 _ _ _ _ Jx Jy), (ltb64 _ _ _ _ Iy Ix). destruct (rltb_spec (- B2R64 x) (- B2R64 y)), (rltb_spec (B2R64 y) (B2R64 x)); try reflexivity; lra.
    + destruct x as [s|[|]| |[|] m e H], y as [s'|[|]| |[|] m' e' H']; cbn in E, Hx, Hy; try discriminate; try destruct s; try destruct s'; reflexivity.
Qed.

(** * C17 *)
Section MostBelieved.
  Context {S V W : Type} {ES : Eqb S} {EV : Eqb V} {EW : Eqb W} {F : Num} {good : F -> Prop} {ON : OrdNum F good} {OO : OrdOpp F good}.
  Notation result := (result S V W F).

  (** [bel] is not smaller than any score in [m] *)
  Definition is_max (m : dict W F) (bel : F) : bool := forallb (fun q => negb (n_ltb bel (snd q))) m.
  (** the values whose score is maximal, in the order of the dictionary *)
  Definition argmax (m : dict W F) : list W := map fst (filter (fun p => is_max m (snd p)) m).

  Notation key := (fun x : W * F => n_opp (snd x)).
  Lemma max_exists (m : dict W F) : m <> [] -> (forall p, In p m -> good (snd p)) -> exists p, In p m /\ is_max m (snd p) = true.
  Proof.
    induction m as [|a m IH]; [congruence|]. intros _ G. destruct m as [|b m'].
    - exists a. split; [now left|]. unfold is_max. cbn. rewrite on_irrefl; [reflexivity|apply G; now left].
    - set (m := b :: m') in *. destruct IH as (p & Hp & Mp); [discriminate|intros q Hq; apply G; now right|].
      unfold is_max in Mp. rewrite forallb_forall in Mp. assert (Ga : good (snd a)) by (apply G; now left). assert (Gp : good (snd p)) by (apply G; now right).
      destruct (n_ltb (snd p) (snd a)) eqn:E.
      + exists a. split; [now left|]. apply forallb_forall. intros q [<-|Hq]; [now rewrite on_irrefl|].
        assert (Gq : good (snd q)) by (apply G; now right). rewrite negb_true_iff. destruct (n_ltb (snd a) (snd q)) eqn:E2; [|reflexivity].
        assert (n_ltb (snd p) (snd q) = true) by (now apply on_trans with (snd a)). specialize (Mp q Hq). rewrite H in Mp. discriminate.
      + exists p. split; [now right|]. apply forallb_forall. intros q [<-|Hq]; [now rewrite E|now apply Mp].
  Qed.
  Lemma insert_front (x : W * F) l : (forall y, In y l -> n_ltb (key y) (key x) = false) -> sort_insert key x l = x :: l.
  Proof. destruct l as [|y t]; [reflexivity|]. intros H. cbn [sort_insert]. now rewrite (H y (or_introl eq_refl)). Qed.
  Lemma insert_past (x : W * F) l1 l2 : (forall y, In y l1 -> n_ltb (key y) (key x) = true) -> sort_insert key x (l1 ++ l2) = l1 ++ sort_insert key x l2.
  Proof. induction l1 as [|y t IH]; [reflexivity|]. intros H. cbn [sort_insert app]. rewrite (H y (or_introl eq_refl)). f_equal. apply IH. intros z Hz. apply H. now right. Qed.
  Lemma insert_In (x y : W * F) l : In y (sort_insert key x l) <-> y = x \/ In y l.
  Proof.
    induction l as [|z t IH]; cbn [sort_insert]; [cbn; intuition|]. destruct (n_ltb _ _); cbn [In]; [rewrite IH|]; intuition.
  Qed.
  Lemma sort_In (y : W * F) l : In y (sort_by key l) <-> In y l.
  Proof. induction l as [|x t IH]; [reflexivity|]. cbn [sort_by fold_right]. rewrite insert_In. fold (sort_by key t). rewrite IH. cbn. intuition. Qed.
  Lemma sort_split (m : F) (l : dict W F) : good m -> (forall p, In p l -> good (snd p) /\ n_ltb m (snd p) = false) ->
    sort_by key l = filter (fun p => negb (n_ltb (snd p) m)) l ++ sort_by key (filter (fun p => n_ltb (snd p) m) l).
  Proof.
    intros Gm. induction l as [|x t IH]; intros H; [reflexivity|].
    destruct (H x (or_introl eq_refl)) as [Gx Lx]. cbn [sort_by fold_right]. fold (sort_by key t). rewrite IH by (intros p Hp; apply H; now right).
    cbn [filter]. destruct (n_ltb (snd x) m) eqn:E; cbn [negb].
    - rewrite insert_past; [reflexivity|]. intros y Hy. apply filter_In in Hy. destruct Hy as [Hy Ny]. apply negb_true_iff in Ny.
      destruct (H y (or_intror Hy)) as [Gy Ly]. rewrite (oo_ltb (snd y) (snd x) Gy Gx).
      assert (Q : n_eqb (snd y) m = true) by (rewrite (on_eqb _ _ Gy Gm), Ny, Ly; reflexivity).
      rewrite <- (on_lt_eq (snd y) m (snd x) Gy Gm Gx Q). exact E.
    - rewrite insert_front; [reflexivity|]. intros y Hy. apply in_app_or in Hy.
      assert (Hy' : In y t) by (destruct Hy as [Hy|Hy]; [|pose proof (proj1 (sort_In y _) Hy) as Hy2; clear Hy; rename Hy2 into Hy]; apply filter_In in Hy; tauto).
      destruct (H y (or_intror Hy')) as [Gy Ly]. rewrite (oo_ltb (snd y) (snd x) Gy Gx).
      assert (Q : n_eqb (snd x) m = true) by (rewrite (on_eqb _ _ Gx Gm), E, Lx; reflexivity).
      rewrite <- (on_eq_lt (snd x) m (snd y) Gx Gm Gy Q). exact Ly.
  Qed.
  Lemma until_less_split (m : F) (l1 l2 : list (W * F)) : (forall p, In p l1 -> n_ltb (snd p) m = false) -> (forall p, In p l2 -> n_ltb (snd p) m = true) ->
    until_less m (l1 ++ l2) = map fst l1.
  Proof.
    intros H1 H2. induction l1 as [|[w q] t IH]; cbn [app until_less map].
    - destruct l2 as [|[w q] t]; [reflexivity|]. cbn [until_less]. specialize (H2 (w, q) (or_introl eq_refl)). cbn in H2. now rewrite H2.
    - pose proof (H1 (w, q) (or_introl eq_refl)) as Q. cbn in Q. rewrite Q. f_equal. apply IH. intros p Hp. apply H1. now right.
  Qed.

  Theorem C17_most_believed (r : result) var m : dget (r_belief r) var = Some m -> m <> [] -> (forall w q, In (w, q) m -> good q) ->
    get_most_believed_values r var = Ok (argmax m).
  Proof.
    intros E NE G0. assert (G : forall p, In p m -> good (snd p)) by (intros [w q] Hp; exact (G0 w q Hp)).
    unfold get_most_believed_values. rewrite E. destruct (max_exists m NE G) as (p & Hp & Mp).
    pose proof Mp as Mp'. unfold is_max in Mp'. rewrite forallb_forall in Mp'. assert (Gp := G p Hp).
    assert (U : forall q, In q m -> good (snd q) /\ n_ltb (snd p) (snd q) = false) by (intros q Hq; split; [auto|apply negb_true_iff; auto]).
    rewrite (sort_split (snd p) m Gp U).
    set (top := filter (fun q => negb (n_ltb (snd q) (snd p))) m).
    assert (Ep : In p top) by (apply filter_In; split; [exact Hp|now rewrite on_irrefl]).
    assert (Tm : forall q, In q top -> In q m /\ n_ltb (snd q) (snd p) = false) by (intros q Hq; apply filter_In in Hq; rewrite negb_true_iff in Hq; exact Hq).
    assert (Ex : top = filter (fun q => is_max m (snd q)) m).
    { apply filter_ext_in. intros q Hq. destruct (U q Hq) as [Gq Lq]. destruct (n_ltb (snd q) (snd p)) eqn:Lt; cbn; symmetry.
      - destruct (is_max m (snd q)) eqn:M; [|reflexivity]. unfold is_max in M. rewrite forallb_forall in M. specialize (M p Hp). rewrite Lt in M. discriminate.
      - apply forallb_forall. intros z Hz. destruct (U z Hz) as [Gz Lz]. apply negb_true_iff. apply nlt_trans with (snd p); auto. }
    destruct top as [|t0 tr] eqn:Et; [destruct Ep|]. cbn [app]. destruct t0 as [w0 q0].
    destruct (Tm (w0, q0) (or_introl eq_refl)) as [Hm0 L0]. cbn [snd] in L0. destruct (U _ Hm0) as [G0' L0']. cbn [snd] in G0', L0'.
    assert (Q : n_eqb q0 (snd p) = true) by (rewrite (on_eqb _ _ G0' Gp), L0, L0'; reflexivity).
    f_equal. change ((w0, q0) :: tr ++ sort_by key (filter (fun q => n_ltb (snd q) (snd p)) m)) with (((w0, q0) :: tr) ++ sort_by key (filter (fun q => n_ltb (snd q) (snd p)) m)).
    rewrite until_less_split.
    - unfold argmax. now rewrite <- Ex.
    - intros q Hq. destruct (Tm q Hq) as [Hqm Lq]. destruct (U q Hqm) as [Gq _]. rewrite <- (on_lt_eq q0 (snd p) (snd q) G0' Gp Gq Q). exact Lq.
    - intros q Hq0. pose proof (proj1 (sort_In q _) Hq0) as Hq. apply filter_In in Hq. destruct Hq as [Hq Lq]. destruct (U q Hq) as [Gq _].
      rewrite <- (on_lt_eq q0 (snd p) (snd q) G0' Gp Gq Q). exact Lq.
  Qed.
  (** so it yields at least one value, each once, and a value is yielded iff no value of the variable has larger belief *)
  Theorem C17_most_believed_iff (r : result) var m : dget (r_belief r) var = Some m -> m <> [] -> NoDup (dkeys m) -> (forall w q, In (w, q) m -> good q) ->
    exists l, get_most_believed_values r var = Ok l /\ l <> [] /\ NoDup l /\
      forall w, In w l <-> exists q, dget m w = Some q /\ forall w' q', dget m w' = Some q' -> n_ltb q q' = false.
  Proof.
    intros E NE ND G. exists (argmax m). split; [now apply C17_most_believed|].
    assert (G' : forall p, In p m -> good (snd p)) by (intros [w q] Hp; exact (G w q Hp)).
    assert (Mx : forall q, is_max m q = true <-> forall w' q', dget m w' = Some q' -> n_ltb q q' = false).
    { intros q. unfold is_max. rewrite forallb_forall. split.
      - intros H w' q' Hq. apply dget_In in Hq. specialize (H _ Hq). now apply negb_true_iff.
      - intros H [w' q'] Hp. apply negb_true_iff. cbn. apply (H w'). now apply In_dget. }
    split; [|split].
    - destruct (max_exists m NE G') as (p & Hp & Mp). intros E'. assert (In (fst p) (argmax m)); [|rewrite E' in *; contradiction].
      apply in_map. apply filter_In. auto.
    - unfold argmax. clear -ND. assert (Gn : forall (P : W * F -> bool) (m : dict W F), NoDup (dkeys m) -> NoDup (map fst (filter P m))); [|auto].
      intros P m0. induction m0 as [|[w q] t IH]; cbn; intros ND0; [constructor|]. inversion ND0; subst. destruct (P (w, q)); [|auto]. cbn. constructor; [|auto].
      intros Hin. apply H1. apply in_map_iff in Hin. destruct Hin as (p & E & Hp). apply filter_In in Hp. apply in_map_iff. exists p. tauto.
    - intros w. unfold argmax. rewrite in_map_iff. split.
      + intros ([w' q] & <- & Hp). apply filter_In in Hp. destruct Hp as [Hp Mp]. exists q. cbn in *. split; [now apply In_dget|]. now apply Mx.
      + intros (q & Hq & H). exists (w, q). split; [reflexivity|]. apply filter_In. split; [now apply dget_In|]. now apply Mx.
  Qed.
  Theorem C17_unknown_variable (r : result) var : get_most_believed_values r var = Err RKeyError <-> dget (r_belief r) var = None.
  Proof.
    unfold get_most_believed_values. destruct (dget (r_belief r) var) as [m|]; [|tauto].
    destruct (sort_by _ m) as [|[w q] t]; split; discriminate.
  Qed.
End MostBelieved.

(** * C18 *)
Section Filter.
  Context {S V W : Type} {ES : Eqb S} {EV : Eqb V} {EW : Eqb W} {F : Num}.
  Notation result := (result S V W F).

  (** is the label asked for?  None asks for everything *)
  Definition wanted {K} `{Eqb K} (keys : option (list K)) (k : K) : bool := match keys with None => true | Some ks => mem k ks end.

  Lemma dget_fold_dset {K X} `{Eqb K} (l : list (K * X)) (d : dict K X) k :
    dget (fold_left (fun d kv => dset d (fst kv) (snd kv)) l d) k =
    match dget (rev l) k with Some v => Some v | None => dget d k end.
  Proof.
    revert d. induction l as [|[a b] t IH]; intros d; [reflexivity|]. cbn [fold_left fst snd]. rewrite IH. cbn [rev].
    assert (A : forall (l m : dict K X), dget (l ++ m) k = match dget l k with Some v => Some v | None => dget m k end).
    { clear. intros l m. induction l as [|[a b] t IH]; cbn; [reflexivity|]. destruct (beq k a); [reflexivity|exact IH]. }
    rewrite A. destruct (dget (rev t) k); [reflexivity|]. rewrite dget_dset. cbn. now destruct (beq k a).
  Qed.
  Lemma dget_dict_of_agree {K X} `{Eqb K} (l : list (K * X)) (f : K -> option X) k : (forall k v, In (k, v) l -> f k = Some v) ->
    dget (dict_of l) k = if mem k (map fst l) then f k else None.
  Proof.
    intros Hf. unfold dict_of. rewrite dget_fold_dset. destruct (dget (rev l) k) as [v|] eqn:E.
    - apply dget_In in E. apply in_rev in E. rewrite (Hf _ _ E). assert (M : mem k (map fst l) = true) by (apply mem_In, in_map_iff; exists (k, v); auto). now rewrite M.
    - cbn. apply dget_None in E. destruct (mem k (map fst l)) eqn:M; [|reflexivity]. exfalso. apply E. apply mem_In in M. unfold dkeys. rewrite map_rev. now apply in_rev in M.
  Qed.
  Lemma filter_dict_In {K X} `{Eqb K} (d : dict K X) ks k v : In (k, v) (filter_dict d ks) <-> In k ks /\ dget d k = Some v.
  Proof.
    unfold filter_dict. rewrite in_flat_map. split.
    - intros (k' & Hk & Hin). destruct (dget d k') as [v'|] eqn:E; [|destruct Hin]. destruct Hin as [Hin|[]]. injection Hin as -> ->. auto.
    - intros [Hk E]. exists k. split; [exact Hk|]. rewrite E. now left.
  Qed.
  Lemma dget_filter_scores {K X} `{Eqb K} (d : dict K X) ks k : dget (filter_scores d ks) k = if wanted ks k then dget d k else None.
  Proof.
    destruct ks as [ks|]; [|reflexivity]. cbn [filter_scores wanted]. rewrite (dget_dict_of_agree _ (dget d)) by (intros k' v Hin; now apply filter_dict_In in Hin).
    destruct (mem k (map fst (filter_dict d ks))) eqn:M.
    - apply mem_In, in_map_iff in M. destruct M as ([k' v] & E & Hin). cbn in E. subst k'. apply filter_dict_In in Hin. destruct Hin as [Hk Hd]. apply mem_In in Hk. now rewrite Hk.
    - destruct (mem k ks) eqn:Mk; [|reflexivity]. destruct (dget d k) as [v|] eqn:E; [|reflexivity]. apply mem_In in Mk. apply mem_false in M. exfalso. apply M.
      apply in_map_iff. exists (k, v). split; [reflexivity|]. now apply filter_dict_In.
  Qed.
  Lemma dkeys_fold_dset {K X} `{Eqb K} (l : list (K * X)) (d : dict K X) : NoDup (dkeys d) ->
    dkeys (fold_left (fun d kv => dset d (fst kv) (snd kv)) l d) = distinct (dkeys d ++ map fst l).
  Proof.
    revert d. induction l as [|[k v] t IH]; intros d ND; cbn [fold_left map fst snd].
    - now rewrite app_nil_r, distinct_NoDup_id.
    - rewrite IH by (now apply dset_NoDup). rewrite dkeys_dset. unfold dmem. destruct (mem k (dkeys d)) eqn:M.
      + assert (G : forall (a b : list K), In k a -> distinct (a ++ k :: b) = distinct (a ++ b)).
        { clear. intros a b Ha. induction b as [|y b IHb] using rev_ind; [rewrite app_nil_r; rewrite distinct_snoc; apply mem_In in Ha; now rewrite Ha|].
          change (a ++ k :: b ++ [y]) with (a ++ (k :: b) ++ [y]). rewrite !app_assoc. rewrite !distinct_snoc, IHb.
          assert (E : mem y (a ++ k :: b) = mem y (a ++ b)).
          { rewrite !mem_app. unfold mem at 2. cbn [existsb]. destruct (beq_spec y k) as [->|N]; [|reflexivity]. cbn. apply mem_In in Ha. now rewrite Ha. }
          now rewrite E. }
        symmetry. apply G. now apply mem_In.
      + now rewrite <- app_assoc.
  Qed.
  Lemma dict_of_keys {K X} `{Eqb K} (l : list (K * X)) : dkeys (dict_of l) = distinct (map fst l).
  Proof. unfold dict_of. rewrite dkeys_fold_dset by constructor. reflexivity. Qed.

  (** exactly the requested scores that exist, with unchanged values; time and number of iterations are kept *)
  Theorem C18_filter (r : result) srcs vars :
    (forall s, trust_of (result_filter r srcs vars) s = if wanted srcs s then trust_of r s else None) /\
    (forall x, dget (r_belief (result_filter r srcs vars)) x = if wanted vars x then dget (r_belief r) x else None) /\
    (forall c, belief_of (result_filter r srcs vars) c = if wanted vars (fst c) then belief_of r c else None) /\
    r_time (result_filter r srcs vars) = r_time r /\ r_iterations (result_filter r srcs vars) = r_iterations r.
  Proof.
    unfold trust_of, belief_of. cbn. repeat split; intros; try apply dget_filter_scores.
    rewrite dget_filter_scores. now destruct (wanted vars (fst c)).
  Qed.
  (** entries come in the order requested, each once *)
  Theorem C18_filter_order (r : result) ss xs :
    dkeys (r_trust (result_filter r (Some ss) (Some xs))) = distinct (filter (fun s => dmem (r_trust r) s) ss) /\
    dkeys (r_belief (result_filter r (Some ss) (Some xs))) = distinct (filter (fun x => dmem (r_belief r) x) xs).
  Proof.
    assert (G : forall {K X} `{Eqb K} (d : dict K X) ks, map fst (filter_dict d ks) = filter (fun s => dmem d s) ks).
    { intros K X HK d ks. induction ks as [|k ks IH]; [reflexivity|]. cbn [filter_dict flat_map filter]. rewrite map_app. fold (filter_dict d ks). rewrite IH.
      unfold dmem. destruct (dget d k) eqn:E.
      - assert (M : mem k (dkeys d) = true) by (apply mem_In, in_map_iff; eexists; split; [|apply dget_In; exact E]; reflexivity). rewrite M. reflexivity.
      - apply dget_None, mem_false in E. rewrite E. reflexivity. }
    unfold result_filter. cbn [r_trust r_belief filter_scores]. rewrite !dict_of_keys, !G. split; reflexivity.
  Qed.
  Theorem C18_filter_none (r : result) : result_filter r None None = r.
  Proof. now destruct r. Qed.
  Lemma filter_dict_ext {K X} `{Eqb K} (d d' : dict K X) ks : (forall k, In k ks -> dget d k = dget d' k) -> filter_dict d ks = filter_dict d' ks.
  Proof.
    unfold filter_dict. induction ks as [|k ks IH]; intros H'; [reflexivity|]. cbn [flat_map]. rewrite (H' k (or_introl eq_refl)). f_equal. apply IH. intros; apply H'; now right.
  Qed.
  Lemma filter_scores_idem {K X} `{Eqb K} (d : dict K X) ks : filter_scores (filter_scores d ks) ks = filter_scores d ks.
  Proof.
    destruct ks as [ks|]; [|reflexivity]. pose proof (dget_filter_scores d (Some ks)) as Q. cbn [filter_scores wanted] in *. f_equal. apply filter_dict_ext.
    intros k Hk. rewrite Q. apply mem_In in Hk. now rewrite Hk.
  Qed.
  Theorem C18_filter_idempotent (r : result) srcs vars : result_filter (result_filter r srcs vars) srcs vars = result_filter r srcs vars.
  Proof. unfold result_filter. cbn. now rewrite !filter_scores_idem. Qed.
  Theorem C18_filter_commute (r : result) srcs vars :
    result_filter (result_filter r srcs None) None vars = result_filter r srcs vars /\
    result_filter (result_filter r None vars) srcs None = result_filter r srcs vars.
  Proof. split; reflexivity. Qed.
End Filter.

(** * C19 *)
Section Diff.
  Context {S V W : Type} {ES : Eqb S} {EV : Eqb V} {EW : Eqb W} {F : Num}.
  Notation result := (result S V W F).
  (** any order in which Python may iterate over the set of common labels *)
  Variables (os : list S -> list S) (ov : list V -> list V) (ow : list W -> list W).
  Hypotheses (Os : forall l, Permutation (os l) l) (Ov : forall l, Permutation (ov l) l) (Ow : forall l, Permutation (ow l) l).

  Definition diff_trust_of (d : result_diff S V W F) (s : S) : option F := dget (df_trust d) s.
  Definition diff_belief_of (d : result_diff S V W F) (c : V * W) : option F :=
    match dget (df_belief d) (fst c) with Some b => dget b (snd c) | None => None end.
  (** second minus first where both exist *)
  Definition minus_opt (y x : option F) : option F := match y, x with Some b, Some a => Some (n_sub b a) | _, _ => None end.

  Lemma common_In {K} `{Eqb K} (o : list K -> list K) (O : forall l, Permutation (o l) l) a b k : In k (common o a b) <-> In k a /\ In k b.
  Proof.
    unfold common. split.
    - intros Hin. apply (Permutation_in _ (O _)) in Hin. apply distinct_In, filter_In in Hin. rewrite mem_In in Hin. exact Hin.
    - intros Hin. apply (Permutation_in _ (Permutation_sym (O _))). apply distinct_In, filter_In. rewrite mem_In. exact Hin.
  Qed.
  Lemma dget_dkeys {K X} `{Eqb K} (d : dict K X) k v : dget d k = Some v -> In k (dkeys d).
  Proof. intros E. apply dget_In in E. apply in_map_iff. exists (k, v). auto. Qed.
  (** a dictionary comprehension over [ks] that keeps [f k] where defined *)
  Lemma dget_comprehension {K X} `{Eqb K} (f : K -> option X) ks k : dget (dict_of (flat_map (fun k => match f k with Some v => [(k, v)] | None => [] end) ks)) k
    = if mem k ks then f k else None.
  Proof.
    rewrite (dget_dict_of_agree _ f).
    - assert (E : mem k (map fst (flat_map (fun k => match f k with Some v => [(k, v)] | None => [] end) ks)) = mem k ks && match f k with Some _ => true | None => false end).
      { apply Bool.eq_true_iff_eq. rewrite andb_true_iff, !mem_In, in_map_iff. split.
        - intros ([k' v] & E & Hin). cbn in E. subst k'. apply in_flat_map in Hin. destruct Hin as (k' & Hk & Hin). destruct (f k') eqn:E; [|destruct Hin]. destruct Hin as [Hin|[]]. injection Hin as -> ->. rewrite E. auto.
        - intros [Hk E]. destruct (f k) as [v|] eqn:Ef; [|discriminate]. exists (k, v). split; [reflexivity|]. apply in_flat_map. exists k. rewrite Ef. split; [exact Hk|now left]. }
      rewrite E. destruct (mem k ks); [|reflexivity]. cbn. now destruct (f k).
    - intros k' v Hin. apply in_flat_map in Hin. destruct Hin as (k2 & Hk & Hin). destruct (f k2) eqn:E; [|destruct Hin]. destruct Hin as [Hin|[]]. injection Hin as -> ->. exact E.
  Qed.
  Lemma flat_map_same {A B} (f g : A -> list B) l : (forall a, f a = g a) -> flat_map f l = flat_map g l.
  Proof. intros E. induction l as [|a l IH]; [reflexivity|]. cbn. now rewrite E, IH. Qed.
  Lemma dget_diff_scores {K} `{Eqb K} (o : list K -> list K) (O : forall l, Permutation (o l) l) (d1 d2 : dict K F) k :
    dget (diff_scores o d1 d2) k = minus_opt (dget d2 k) (dget d1 k).
  Proof.
    unfold diff_scores. set (f := fun k => minus_opt (dget d2 k) (dget d1 k)).
    rewrite (flat_map_same _ (fun k => match f k with Some v => [(k, v)] | None => [] end)) by (intros a; unfold f, minus_opt; now destruct (dget d1 a), (dget d2 a)).
    rewrite dget_comprehension. destruct (mem k (common o (dkeys d1) (dkeys d2))) eqn:M; [reflexivity|]. unfold f, minus_opt.
    destruct (dget d2 k) eqn:E2, (dget d1 k) eqn:E1; try reflexivity. apply mem_false in M. exfalso. apply M. apply common_In; [exact O|]. split; eapply dget_dkeys; eassumption.
  Qed.

  Definition diff_vars (r1 r2 : result) (x : V) : option (dict W F) :=
    match dget (r_belief r1) x, dget (r_belief r2) x with
    | Some b1, Some b2 => match diff_scores ow b1 b2 with [] => None | d => Some d end
    | _, _ => None
    end.
  Lemma dget_df_belief (r1 r2 : result) x : dget (df_belief (make_diff os ov ow r1 r2)) x = diff_vars r1 r2 x.
  Proof.
    cbn [make_diff df_belief]. rewrite (flat_map_same _ (fun k => match diff_vars r1 r2 k with Some v => [(k, v)] | None => [] end)).
    - rewrite dget_comprehension. destruct (mem x _) eqn:M; [reflexivity|]. unfold diff_vars. destruct (dget (r_belief r1) x) eqn:E1, (dget (r_belief r2) x) eqn:E2; try reflexivity.
      apply mem_false in M. exfalso. apply M. apply common_In; [exact Ov|]. split; eapply dget_dkeys; eassumption.
    - intros a. unfold diff_vars. destruct (dget (r_belief r1) a), (dget (r_belief r2) a); try reflexivity. now destruct (diff_scores ow d d0).
  Qed.

  (** exactly the common sources and the common (variable, value) pairs, mapped to second minus first *)
  Theorem C19_diff (r1 r2 : result) : let d := make_diff os ov ow r1 r2 in
    (forall s, diff_trust_of d s = minus_opt (trust_of r2 s) (trust_of r1 s)) /\
    (forall c, diff_belief_of d c = minus_opt (belief_of r2 c) (belief_of r1 c)) /\
    df_time d = n_sub (r_time r2) (r_time r1).
  Proof.
    cbn zeta. split; [|split]; [| |reflexivity].
    - intros s. apply dget_diff_scores. exact Os.
    - intros [x w]. unfold diff_belief_of, belief_of. cbn [fst snd]. rewrite dget_df_belief. unfold diff_vars.
      destruct (dget (r_belief r1) x) as [b1|], (dget (r_belief r2) x) as [b2|]; try reflexivity.
      + pose proof (dget_diff_scores ow Ow b1 b2 w) as Q. destruct (diff_scores ow b1 b2); [|exact Q]. rewrite <- Q. reflexivity.
      + unfold minus_opt. now destruct (dget b2 w).
  Qed.
  (** a variable is present iff the two results have a common value for it *)
  Theorem C19_diff_variables (r1 r2 : result) x :
    In x (dkeys (df_belief (make_diff os ov ow r1 r2))) <-> exists w, belief_of r1 (x, w) <> None /\ belief_of r2 (x, w) <> None.
  Proof.
    assert (E : In x (dkeys (df_belief (make_diff os ov ow r1 r2))) <-> diff_vars r1 r2 x <> None).
    { rewrite <- dget_df_belief, dget_None. split; [tauto|]. intros Hn. destruct (in_dec eq_dec_of x (dkeys (df_belief (make_diff os ov ow r1 r2)))); tauto. }
    rewrite E. clear E. unfold diff_vars, belief_of. cbn [fst snd]. destruct (dget (r_belief r1) x) as [b1|], (dget (r_belief r2) x) as [b2|]; try (split; [congruence|intros (w & A & B); congruence]).
    assert (Q := dget_diff_scores ow Ow b1 b2). unfold minus_opt in Q. destruct (diff_scores ow b1 b2) as [|[w q] t] eqn:Ed.
    - split; [congruence|]. intros (w & A & B). specialize (Q w). cbn in Q. destruct (dget b1 w), (dget b2 w); congruence.
    - split; [|discriminate]. intros _. exists w. specialize (Q w). cbn in Q. rewrite beq_refl in Q. destruct (dget b1 w), (dget b2 w); split; congruence.
  Qed.
  Theorem C19_diff_keys_once (r1 r2 : result) : let d := make_diff os ov ow r1 r2 in
    NoDup (dkeys (df_trust d)) /\ NoDup (dkeys (df_belief d)) /\ forall x b, dget (df_belief d) x = Some b -> NoDup (dkeys b).
  Proof.
    assert (G : forall {K X} `{Eqb K} (l : list (K * X)), NoDup (dkeys (dict_of l))) by (intros; rewrite dict_of_keys; apply distinct_NoDup).
    cbn zeta. split; [apply G|split; [apply G|]]. intros x b E. rewrite dget_df_belief in E. unfold diff_vars in E.
    destruct (dget (r_belief r1) x) as [b1|], (dget (r_belief r2) x) as [b2|]; try discriminate.
    assert (N := G _ _ _ (flat_map (fun k => match dget b1 k, dget b2 k with Some x, Some y => [(k, n_sub y x)] | _, _ => [] end) (common ow (dkeys b1) (dkeys b2)))).
    fold (diff_scores ow b1 b2) in N. destruct (diff_scores ow b1 b2); [discriminate|]. now injection E as <-.
  Qed.
  Theorem C19_iterations (r1 r2 : result) :
    (df_iterations (make_diff os ov ow r1 r2) = None <-> r_iterations r1 = None \/ r_iterations r2 = None) /\
    (forall i j, r_iterations r1 = Some i -> r_iterations r2 = Some j -> df_iterations (make_diff os ov ow r1 r2) = Some (Z.of_nat j - Z.of_nat i)%Z).
  Proof.
    cbn. destruct (r_iterations r1), (r_iterations r2); split; try (intuition discriminate); try (intros ? ? [= ->] [= ->]; reflexivity).
  Qed.
End Diff.
Section DiffReal.
  Context {S V W : Type} {ES : Eqb S} {EV : Eqb V} {EW : Eqb W}.
  Variables (os : list S -> list S) (ov : list V -> list V) (ow : list W -> list W).
  Variables (os' : list S -> list S) (ov' : list V -> list V) (ow' : list W -> list W).
  Hypotheses (Os : forall l, Permutation (os l) l) (Ov : forall l, Permutation (ov l) l) (Ow : forall l, Permutation (ow l) l).
  Hypotheses (Os' : forall l, Permutation (os' l) l) (Ov' : forall l, Permutation (ov' l) l) (Ow' : forall l, Permutation (ow' l) l).
  Lemma sub_swap (x y : XR) : n_sub y x = n_opp (n_sub x y).
  Proof. destruct x, y; cbn; try reflexivity. f_equal. lra. Qed.
  Lemma minus_swap (x y : option XR) : minus_opt y x = option_map n_opp (minus_opt x y).
  Proof. destruct x as [x|], y as [y|]; try reflexivity. cbn [minus_opt option_map]. f_equal. apply sub_swap. Qed.
  Theorem C19_swap_negates (r1 r2 : result S V W XR) : let d := make_diff os ov ow r1 r2 in let d' := make_diff os' ov' ow' r2 r1 in
    (forall s, diff_trust_of d' s = option_map n_opp (diff_trust_of d s)) /\
    (forall c, diff_belief_of d' c = option_map n_opp (diff_belief_of d c)) /\
    df_time d' = n_opp (df_time d) /\ df_iterations d' = option_map Z.opp (df_iterations d).
  Proof.
    cbn zeta. destruct (C19_diff os ov ow Os Ov Ow r1 r2) as (A1 & A2 & A3). destruct (C19_diff os' ov' ow' Os' Ov' Ow' r2 r1) as (B1 & B2 & B3).
    split; [|split; [|split]].
    - intros s. rewrite A1, B1. apply minus_swap.
    - intros c. rewrite A2, B2. apply minus_swap.
    - rewrite A3, B3. apply sub_swap.
    - unfold make_diff. cbn [df_iterations]. destruct (r_iterations r1), (r_iterations r2); try reflexivity. cbn [option_map]. f_equal. lia.
  Qed.
  (** the reported scores are numbers: Fin *)
  Theorem C19_self_zero (r : result S V W XR) : let d := make_diff os ov ow r r in
    (forall s a, trust_of r s = Some (Fin a) -> diff_trust_of d s = Some (Fin 0)) /\
    (forall c a, belief_of r c = Some (Fin a) -> diff_belief_of d c = Some (Fin 0)) /\
    (forall n, r_iterations r = Some n -> df_iterations d = Some 0%Z).
  Proof.
    cbn zeta. destruct (C19_diff os ov ow Os Ov Ow r r) as (A1 & A2 & A3).
    assert (G : forall a, minus_opt (F:=XR) (Some (Fin a)) (Some (Fin a)) = Some (Fin 0)) by (intros a; unfold minus_opt; do 2 f_equal; cbn; f_equal; lra).
    split; [|split].
    - intros s a E. rewrite A1, E. apply G.
    - intros s a E. rewrite A2, E. apply G.
    - intros n E. unfold make_diff. cbn [df_iterations]. rewrite E. f_equal. lia.
  Qed.
End DiffReal.

(** * C20 *)
Section Stats.
  Context {S V W : Type} {ES : Eqb S} {EV : Eqb V} {EW : Eqb W}.
  Context {K : Type}.
  Local Open Scope R_scope.
  Definition mean (xs : list R) : R := rsum (fun x => x) xs / INR (length xs).
  Definition stddev (xs : list R) : R := sqrt (rsum (fun x => (x - mean xs) * (x - mean xs)) xs / INR (length xs)).
  (** scores that are real numbers *)
  Definition real_scores (xs : list (K * R)) : dict K XR := map (fun p => (fst p, Fin (snd p))) xs.

  Lemma np_mean_fin (xs : list R) : xs <> [] -> np_mean (F:=XR) (map Fin xs) = Fin (mean xs).
  Proof.
    intros NE. unfold np_mean. rewrite map_length. 
    transitivity (xdiv (Fin (rsum (fun x => x) xs)) (Fin (IZR (Z.of_nat (length xs))))).
    - exact (f_equal (fun z => xdiv z (Fin (IZR (Z.of_nat (length xs))))) (vsum_fin (fun x => x) xs)).
    - rewrite <- INR_IZR_INZ. apply xdiv_fin. apply Rgt_not_eq. apply lt_0_INR. destruct xs; [congruence|cbn; lia].
  Qed.
  Lemma np_std_fin (xs : list R) : xs <> [] -> np_std (F:=XR) (map Fin xs) = Fin (stddev xs).
  Proof.
    intros NE. unfold np_std. rewrite np_mean_fin by exact NE. cbv zeta. rewrite map_map, map_length.
    assert (P : 0 < INR (length xs)) by (apply lt_0_INR; destruct xs; [congruence|cbn; lia]).
    assert (E : vsum (F:=XR) (map (fun x => n_mul (n_sub (Fin x) (Fin (mean xs))) (n_sub (Fin x) (Fin (mean xs)))) xs) = Fin (rsum (fun x => (x - mean xs) * (x - mean xs)) xs)).
    { rewrite <- (vsum_fin (fun x => (x - mean xs) * (x - mean xs)) xs). reflexivity. }
    transitivity (xsqrt (xdiv (Fin (rsum (fun x => (x - mean xs) * (x - mean xs)) xs)) (Fin (IZR (Z.of_nat (length xs)))))).
    - exact (f_equal (fun z => xsqrt (xdiv z (Fin (IZR (Z.of_nat (length xs)))))) E).
    - rewrite <- INR_IZR_INZ, xdiv_fin by lra. apply xsqrt_fin. apply Rmult_le_pos; [apply rsum_nonneg; intros; apply Rle_0_sqr|]. left. now apply Rinv_0_lt_compat.
  Qed.
  Theorem C20_stats (xs : list (K * R)) : xs <> [] -> get_stats (F:=XR) (real_scores xs) = (Fin (mean (map snd xs)), Fin (stddev (map snd xs))).
  Proof.
    intros NE. assert (E : map snd (real_scores xs) = map Fin (map snd xs)) by (unfold real_scores; now rewrite !map_map).
    assert (NE' : map snd xs <> []) by (destruct xs; [congruence|discriminate]).
    unfold get_stats. cbv zeta. apply f_equal2; [exact (eq_trans (f_equal (np_mean (F:=XR)) E) (np_mean_fin _ NE'))|exact (eq_trans (f_equal (np_std (F:=XR)) E) (np_std_fin _ NE'))].
  Qed.
  Theorem C20_mean_between (xs : list R) lo hi : xs <> [] -> (forall x, In x xs -> lo <= x <= hi) -> lo <= mean xs <= hi.
  Proof.
    intros NE H. assert (P : 0 < INR (length xs)) by (apply lt_0_INR; destruct xs; [congruence|cbn; lia]).
    assert (A : INR (length xs) * lo <= rsum (fun x => x) xs <= INR (length xs) * hi).
    { rewrite <- !rsum_const. split; apply rsum_le; intros x Hx; now apply H. }
    split; apply (Rmult_le_reg_r (INR (length xs))); try exact P; unfold mean, Rdiv; rewrite Rmult_assoc, Rinv_l, Rmult_1_r by lra; lra.
  Qed.
  Theorem C20_std (xs : list R) : xs <> [] -> 0 <= stddev xs /\ (stddev xs = 0 <-> forall x y, In x xs -> In y xs -> x = y).
  Proof.
    intros NE. split; [apply sqrt_pos|]. assert (P : 0 < INR (length xs)) by (apply lt_0_INR; destruct xs; [congruence|cbn; lia]).
    assert (N : 0 <= rsum (fun x => (x - mean xs) * (x - mean xs)) xs) by (apply rsum_nonneg; intros; apply Rle_0_sqr).
    unfold stddev. split.
    - intros E. apply sqrt_eq_0 in E; [|apply Rmult_le_pos; [exact N|left; now apply Rinv_0_lt_compat]].
      assert (Z : rsum (fun x => (x - mean xs) * (x - mean xs)) xs = 0).
      { unfold Rdiv in E. apply Rmult_integral in E. destruct E as [E|E]; [exact E|]. assert (0 < / INR (length xs)) by (now apply Rinv_0_lt_compat). lra. }
      assert (A := rsum_0_inv (fun x => (x - mean xs) * (x - mean xs)) xs (fun y _ => Rle_0_sqr (y - mean xs)) Z). cbn in A.
      intros x y Hx Hy. pose proof (A x Hx) as Ax. pose proof (A y Hy) as Ay. assert (x - mean xs = 0) by nra. assert (y - mean xs = 0) by nra. lra.
    - intros Heq. assert (Z : rsum (fun x => (x - mean xs) * (x - mean xs)) xs = 0); [|rewrite Z; unfold Rdiv; rewrite Rmult_0_l; apply sqrt_0].
      rewrite (rsum_ext _ (fun _ => 0)); [apply rsum_zero|]. intros x Hx. assert (M : x <= mean xs <= x); [|nra].
      apply C20_mean_between; [exact NE|]. intros y Hy. rewrite (Heq y x Hy Hx). lra.
  Qed.
  (** no score at all: both are NaN *)
  Theorem C20_empty : get_stats (F:=XR) ([] : dict K XR) = (NaN, NaN).
  Proof. unfold get_stats, np_mean, np_std. cbn. destruct (reqb_spec 0 0); [|lra]. unfold xsign. rewrite (rltb_false 0 0) by lra. reflexivity. Qed.
End Stats.
Section StatsApi.
  Context {S V W : Type} {ES : Eqb S} {EV : Eqb V} {EW : Eqb W}.
  (** trust statistics are those of all sources, belief statistics those of each variable's values *)
  Theorem C20_trust_stats (r : result S V W XR) xs : r_trust r = real_scores xs -> xs <> [] ->
    get_trust_stats r = (Fin (mean (map snd xs)), Fin (stddev (map snd xs))).
  Proof. intros E NE. unfold get_trust_stats. rewrite E. exact (C20_stats xs NE). Qed.
  Theorem C20_belief_stats (r : result S V W XR) :
    dkeys (get_belief_stats r) = dkeys (r_belief r) /\
    forall x ys, dget (r_belief r) x = Some (real_scores ys) -> ys <> [] ->
      dget (get_belief_stats r) x = Some (Fin (mean (map snd ys)), Fin (stddev (map snd ys))).
  Proof.
    split; [unfold get_belief_stats, dkeys; rewrite map_map; reflexivity|]. intros x ys E NE. assert (Q := C20_stats ys NE).
    rewrite <- Q. clear Q. assert (G : dget (get_belief_stats r) x = option_map get_stats (dget (r_belief r) x)); [|now rewrite G, E].
    clear. unfold get_belief_stats. induction (r_belief r) as [|[y b] t IH]; [reflexivity|]. cbn [map dget fst snd]. destruct (beq x y); [reflexivity|exact IH].
  Qed.
End StatsApi.

(** * Non-vacuity: a result with two sources and a tie *)
Module ResultExamples.
  Local Open Scope R_scope.
  Definition r : result nat nat nat XR :=
    Result [(0%nat, Fin 1); (1%nat, Fin (1/2))] [(7%nat, [(4%nat, Fin 1); (5%nat, Fin (1/4)); (6%nat, Fin 1)])] (Fin 0) (Some 3%nat).
  Example most_believed : get_most_believed_values r 7%nat = Ok [4%nat; 6%nat].
  Proof.
    rewrite (C17_most_believed (good := fun x : XR => x <> NaN) r 7%nat [(4%nat, Fin 1); (5%nat, Fin (1/4)); (6%nat, Fin 1)]).
    - unfold argmax, is_max. cbn. rewrite !(rltb_false 1 1), !(rltb_false 1 (1/4)), !(rltb_true (1/4) 1) by lra. reflexivity.
    - reflexivity.
    - discriminate.
    - cbn. intros w q [[= <- <-]|[[= <- <-]|[[= <- <-]|[]]]]; discriminate.
  Qed.
  Example filtered : dkeys (r_trust (result_filter r (Some [1%nat; 9%nat; 1%nat]) None)) = [1%nat].
  Proof. reflexivity. Qed.
  Example stats : get_trust_stats r = (Fin (mean [1; 1/2]), Fin (stddev [1; 1/2])).
  Proof. apply (C20_trust_stats r [(0%nat, 1); (1%nat, 1/2)]); [reflexivity|discriminate]. Qed.
  Example diff_self : diff_trust_of (make_diff (fun l => l) (fun l => l) (fun l => rev l) r r) 1%nat = Some (Fin 0).
  Proof. apply (C19_self_zero (fun l => l) (fun l => l) (fun l => rev l)) with (1/2); try (intros; apply Permutation_refl); [intros; apply Permutation_sym, Permutation_rev|reflexivity]. Qed.
End ResultExamples.
