(** What compile draws, at the level of labels. *)
From Coq Require Import NArith String Reals Lra Sorted.
From Verif Require Import Base Num Sparse Spec Dataset DatasetProofs DatasetRep Iterators Algorithms Results PyStr Client PropsOutput Graph.

(** ** Lists and dictionaries indexed by 0..n-1 *)
Section Indexed.
  Context {A X : Type}.
  Lemma nth_enum_from (l : list A) i0 i : nth_error (enum_from i0 l) i = option_map (fun x => (i0 + i, x)) (nth_error l i).
  Proof.
    revert i0 i. induction l as [|x l IH]; intros i0 [|i]; cbn; try reflexivity; [now rewrite Nat.add_0_r|].
    rewrite IH. destruct (nth_error l i); cbn; [|reflexivity]. do 2 f_equal. lia.
  Qed.
  Lemma map_enumerate {B} (f : A -> B) l : enumerate (map f l) = map (fun p => (fst p, f (snd p))) (enumerate l).
  Proof. unfold enumerate. generalize 0. induction l as [|x l IH]; intros i; cbn; [reflexivity|]. now rewrite IH. Qed.
  Lemma dget_enumerate (l : list A) i : dget (enumerate l) i = nth_error l i.
  Proof.
    destruct (nth_error l i) as [x|] eqn:E.
    - apply In_dget; [|now apply enumerate_In]. unfold dkeys, enumerate. rewrite map_fst_enum_from. apply seq_NoDup.
    - apply dget_None. unfold dkeys, enumerate. rewrite map_fst_enum_from, in_seq. apply nth_error_None in E. lia.
  Qed.
  Lemma dict_of_enumerate (l : list A) : dict_of (enumerate l) = enumerate l.
  Proof. apply dict_of_distinct. unfold enumerate. rewrite map_fst_enum_from. apply seq_NoDup. Qed.
  Lemma mapM_indexed {E B} (f : nat -> res E B) (g : nat -> A -> B) (l : list A) : (forall i x, nth_error l i = Some x -> f i = Ok (g i x)) ->
    mapM f (seq 0 (length l)) = Ok (map (fun p => g (fst p) (snd p)) (enumerate l)).
  Proof.
    intros H. replace (seq 0 (length l)) with (map fst (enumerate l)) by (unfold enumerate; now rewrite map_fst_enum_from).
    assert (G : forall i x, In (i, x) (enumerate l) -> f i = Ok (g i x)) by (intros i x Hi; apply H; now apply enumerate_In). clear H.
    induction (enumerate l) as [|[i x] t IH]; [reflexivity|]. cbn [map mapM fst snd]. rewrite (G i x) by now left. cbn [bind]. rewrite IH by (intros; apply G; now right). reflexivity.
  Qed.
  Lemma mapM_pairs {E B} (f : A * nat -> res E B) (g : A -> nat -> B) (l : list A) : (forall i x, nth_error l i = Some x -> f (x, i) = Ok (g x i)) ->
    mapM f (ids l) = Ok (map (fun p => g (snd p) (fst p)) (enumerate l)).
  Proof.
    intros H. assert (Ei : ids l = map (fun p => (snd p, fst p)) (enumerate l)).
    { unfold ids, enumerate. generalize 0. clear. induction l as [|x l IH]; intros i; cbn; [reflexivity|]. now rewrite IH. }
    rewrite Ei. assert (G : forall i x, In (i, x) (enumerate l) -> f (x, i) = Ok (g x i)) by (intros i x Hi; apply H; now apply enumerate_In). clear H Ei.
    induction (enumerate l) as [|[i x] t IH]; [reflexivity|]. cbn [map mapM fst snd]. rewrite (G i x) by now left. cbn [bind]. rewrite IH by (intros; apply G; now right). reflexivity.
  Qed.
  Lemma concat_map_enumerate {B} (g : A -> list B) (l : list A) : concat (map (fun p => g (snd p)) (enumerate l)) = flat_map g l.
  Proof. unfold enumerate. generalize 0. induction l as [|x l IH]; intros i; cbn; [reflexivity|]. now rewrite IH. Qed.
End Indexed.

Lemma ids_enumerate {A} (l : list A) : ids l = map (fun p => (snd p, fst p)) (enumerate l).
Proof. unfold ids, enumerate. generalize 0. induction l as [|x l IH]; intros i; cbn; [reflexivity|]. now rewrite IH. Qed.
Lemma sort_map {A B} (f : A -> B) (lt : B -> B -> bool) l : sort_with lt (map f l) = map f (sort_with (fun a b => lt (f a) (f b)) l).
Proof.
  assert (I : forall x l, insert_by lt (f x) (map f l) = map f (insert_by (fun a b => lt (f a) (f b)) x l)).
  { intros x m. induction m as [|y m IH]; [reflexivity|]. cbn [map insert_by]. destruct (lt (f y) (f x)); [|reflexivity]. cbn [map]. now rewrite IH. }
  induction l as [|x l IH]; [reflexivity|]. unfold sort_with in *. cbn [map fold_right]. rewrite IH. apply I.
Qed.
Lemma sorted_map {A B} (f : A -> B) (R : B -> B -> Prop) l : StronglySorted (fun a b => R (f a) (f b)) l -> StronglySorted R (map f l).
Proof.
  induction 1 as [|x l Hs IH Hx]; cbn; constructor; auto. rewrite Forall_forall in *. intros y Hy. apply in_map_iff in Hy. destruct Hy as (z & <- & Hz). auto.
Qed.

(** the items of l in the order of their keys *)
Definition by_key {A X} (key : A -> X) (lt : X -> X -> bool) (l : list A) : list A := map snd (sort_with (fun p q => lt (key (snd p)) (key (snd q))) (enumerate l)).
Section ByKey.
  Context {A X : Type} {EA : Eqb A} (key : A -> X) (lt : X -> X -> bool).
  Lemma by_key_perm l : Permutation (by_key key lt l) l.
  Proof. unfold by_key. rewrite sort_perm. unfold enumerate. now rewrite map_snd_enum_from. Qed.
  Lemma by_key_sort l : by_key key lt l = sort_with (fun a b => lt (key a) (key b)) l.
  Proof.
    unfold by_key. rewrite <- (sort_map snd (fun a b => lt (key a) (key b))). f_equal. unfold enumerate. apply map_snd_enum_from.
  Qed.
  Lemma by_key_sorted l : strict_weak lt -> StronglySorted (fun a b => lt (key b) (key a) = false) (by_key key lt l).
  Proof.
    intros (As & Nt). rewrite by_key_sort. apply (sort_sorted_weak (fun a b => lt (key a) (key b))). split; intros; eauto.
  Qed.
  Lemma keys_sorted l : sort_keys_by_value lt (enumerate (map key l)) = map fst (sort_with (fun p q => lt (key (snd p)) (key (snd q))) (enumerate l)).
  Proof. unfold sort_keys_by_value. rewrite map_enumerate, sort_map, map_map. apply map_ext. now intros [i x]. Qed.
  (** the coordinates given to the items: item i of l gets those of its position in the sorted list *)
  Lemma dget_coords {Y} (coords : nat -> Y) l i : NoDup l ->
    dget (dict_of (map (fun p => (snd p, coords (fst p))) (enumerate (sort_keys_by_value lt (enumerate (map key l)))))) i
    = option_map (fun x => coords (pos x (by_key key lt l))) (nth_error l i).
  Proof.
    intros ND. rewrite keys_sorted. unfold by_key. set (P := sort_with _ (enumerate l)).
    assert (PP : Permutation P (enumerate l)) by apply sort_perm. clearbody P.
    assert (N1 : NoDup (map fst P)) by (rewrite PP; unfold enumerate; rewrite map_fst_enum_from; apply seq_NoDup).
    assert (N2 : NoDup (map snd P)) by (rewrite PP; unfold enumerate; now rewrite map_snd_enum_from).
    assert (Ek : map fst (map (fun p : nat * nat => (snd p, coords (fst p))) (enumerate (map fst P))) = map fst P).
    { rewrite map_map. cbn [fst]. unfold enumerate. now rewrite map_snd_enum_from. }
    rewrite dict_of_distinct by (rewrite Ek; exact N1). destruct (nth_error l i) as [x|] eqn:E; cbn [option_map].
    - apply In_dget; [unfold dkeys; rewrite Ek; exact N1|]. apply in_map_iff. exists (pos x (map snd P), i). split; [reflexivity|]. apply enumerate_In.
      assert (Hin : In (i, x) P) by (apply (Permutation_in _ (Permutation_sym PP)); now apply enumerate_In).
      apply In_nth_error in Hin. destruct Hin as [j Hj]. assert (pos x (map snd P) = j) as ->.
      { apply pos_nth_error; [exact N2|]. now rewrite nth_error_map, Hj. }
      now rewrite nth_error_map, Hj.
    - apply dget_None. unfold dkeys. rewrite Ek. rewrite PP. unfold enumerate. rewrite map_fst_enum_from, in_seq. apply nth_error_None in E. lia.
  Qed.
End ByKey.

(** np.nonzero of a matrix of a relation, and what is done for each entry *)
Lemma mapM_nonzero {F : Num} {A B Er Y} (M : mat F) (R : list A) (C : list B) rel ent (f : nat * nat -> res Er Y) (g : A -> B -> Y) :
  mrep M R C rel ent -> (forall a b, rel a b = true -> n_eqb (ent a b) (n_ofZ 0) = false) ->
  (forall i j a b, nth_error R i = Some a -> nth_error C j = Some b -> rel a b = true -> f (i, j) = Ok (g a b)) ->
  mapM f (nonzero M) = Ok (map (fun p => g (fst p) (snd p)) (filter (fun p => rel (fst p) (snd p)) (list_prod R C))).
Proof.
  intros (Hr & Hc & H) NZ Hf. unfold nonzero. rewrite Hr, Hc.
  assert (G : forall R' o, (forall i a, nth_error R' i = Some a -> nth_error R (o + i) = Some a) ->
    mapM f (filter (fun p => m_stored M (fst p) (snd p) && negb (n_eqb (m_entry M (fst p) (snd p)) (n_ofZ 0))) (list_prod (seq o (length R')) (seq 0 (length C))))
    = Ok (map (fun p => g (fst p) (snd p)) (filter (fun p => rel (fst p) (snd p)) (list_prod R' C)))).
  2:{ apply (G R 0). auto. }
  assert (App : forall l m, mapM f (l ++ m) = (x <- mapM f l ;; y <- mapM f m ;; Ok (x ++ y))).
  { induction l as [|x l IH]; intros m; cbn [app mapM bind]; [destruct (mapM f m); reflexivity|]. rewrite IH. destruct (f x); [|reflexivity]. cbn [bind]. destruct (mapM f l); [|reflexivity]. cbn [bind]. destruct (mapM f m); reflexivity. }
  induction R' as [|a R' IH]; intros o Ho; [reflexivity|]. cbn [length seq list_prod]. rewrite !filter_app, App, map_app.
  rewrite (IH (S o)) by (intros i a' Hi; replace (S o + i) with (o + S i) by lia; now apply Ho). clear IH.
  assert (Row : forall C' q, (forall j b, nth_error C' j = Some b -> nth_error C (q + j) = Some b) ->
    mapM f (filter (fun p => m_stored M (fst p) (snd p) && negb (n_eqb (m_entry M (fst p) (snd p)) (n_ofZ 0))) (map (fun y => (o, y)) (seq q (length C'))))
    = Ok (map (fun p => g (fst p) (snd p)) (filter (fun p => rel (fst p) (snd p)) (map (fun y => (a, y)) C')))).
  { assert (Ha : nth_error R o = Some a) by (rewrite <- (Nat.add_0_r o); now apply Ho).
    induction C' as [|b C' IH]; intros q Hq; [reflexivity|]. cbn [length seq map filter fst snd].
    assert (Hb : nth_error C q = Some b) by (rewrite <- (Nat.add_0_r q); now apply Hq).
    destruct (H o q a b Ha Hb) as [H1 H2]. rewrite H1.
    assert (IH' := IH (S q) (fun j b' Hj => ltac:(replace (S q + j) with (q + S j) by lia; apply Hq; exact Hj))). clear IH.
    destruct (rel a b) eqn:E; cbn [andb]; [|exact IH']. rewrite H2, NZ by auto. cbn [negb mapM]. rewrite (Hf o q a b Ha Hb E). cbn [bind]. rewrite IH'. reflexivity. }
  rewrite (Row C 0) by auto. reflexivity.
Qed.

(** ** compile *)
Section CompileRep.
  Context {S V W LS LV : Type} {ES : Eqb S} {EV : Eqb V} {EW : Eqb W} {EL : Eqb LV} {F : Num} {FOK : NumOK F}.
  Notation claim := (V * W)%type.
  Variable src_tuple : S -> option (option (V * W)).
  Variable T : trig F.
  Variable sz : sizes.
  Variable nm : naming S V W LS LV.
  Variable sch : scheme S V W F.
  Variable ts : list (S * V * W).
  Variable impf : option (V -> W -> W -> option F).
  Variable d : dataset S V W F.
  Hypothesis R : ds_rep ts impf d.

  Definition claim_key (c : claim) : LV * pystr := (nm_var nm (fst c), nm_claim nm (fst c) (snd c)).
  Definition src_order : list S := by_key (nm_src nm) (nm_lt_src nm) (sources ts).
  Definition claim_order : list claim := by_key claim_key (pair_lt (nm_lt_var nm) str_ltb) (claims ts).
  Definition src_at (height : Z) (s : S) : F * F := (n_ofZ (g_radius sz), y_coord sz height (pos s src_order) (length (sources ts))).
  Definition claim_at (height : Z) (c : claim) : F * F := (n_div (n_ofZ (g_width sz)) (n_ofZ 2), y_coord sz height (pos c claim_order) (length (claims ts))).
  Definition var_at (height : Z) (x : V) : F * F :=
    (n_ofZ (g_width sz - g_radius sz), np_mean (map (fun c => snd (claim_at height c)) (filter (fun c => beq (fst c) x) (claims ts)))).

  (** drawing of one node, given its colours *)
  Definition node_entities (cols : colour F * colour F * colour F) (text : pystr) (xy : F * F) : list (entity F) :=
    (if (0 <? g_border sz)%Z then [Circle (fst xy) (snd xy) (snd cols) (n_ofZ (g_radius sz)) None] else [])
    ++ [Circle (fst xy) (snd xy) (fst (fst cols)) (n_ofZ (g_radius sz - g_border sz))
         (Some (Label (fst xy) (snd xy) (snd (fst cols)) text (n_ofZ (g_font sz)) (get_background_colour sch)))].
  Lemma compile_node_spec n text xy : compile_node src_tuple sz sch n text xy = match get_node_colour src_tuple sch n with Ok cols => Ok (node_entities cols text xy) | Err e => Err e end.
  Proof. unfold compile_node, node_entities. destruct (get_node_colour src_tuple sch n) as [[[a b] c]|e]; [|reflexivity]. now destruct xy. Qed.

  (** the whole drawing, given the colours of the nodes *)
  Definition drawing_of (cols : node S V W -> colour F * colour F * colour F) (height : Z) (progress : option F) : list (entity F) :=
    compile_background sz sch height
    ++ flat_map (fun p => compile_edge T sz sch (src_at height (fst p)) (claim_at height (snd p))) (filter (fun p => says ts (fst p) (snd p)) (list_prod (sources ts) (claims ts)))
    ++ flat_map (fun c => compile_edge T sz sch (claim_at height c) (var_at height (fst c))
                          ++ node_entities (cols (NClaim (fst c) (snd c))) (nm_claim nm (fst c) (snd c)) (claim_at height c)) (claims ts)
    ++ flat_map (fun x => node_entities (cols (NVariable x)) (nm_show_var nm (nm_var nm x)) (var_at height x)) (variables ts)
    ++ flat_map (fun s => node_entities (cols (NSource s)) (nm_show_src nm (nm_src nm s)) (src_at height s)) (sources ts)
    ++ match progress with Some p => compile_progress sz sch height p | None => [] end.

  (** the nodes, in the order in which their colours are asked for *)
  Definition all_nodes : list (node S V W) := map (fun c => NClaim (fst c) (snd c)) (claims ts) ++ map NVariable (variables ts) ++ map NSource (sources ts).
  (** the first error in a list of colour lookups *)
  Fixpoint first_error (l : list (node S V W)) : option gerr :=
    match l with [] => None | n :: t => match get_node_colour src_tuple sch n with Ok _ => first_error t | Err e => Some e end end.

  Lemma mapM_colours {X} (l : list X) (nd : X -> node S V W) (mk : X -> colour F * colour F * colour F -> list (entity F)) (f : X -> res gerr (list (entity F))) cols :
    (forall x, In x l -> f x = match get_node_colour src_tuple sch (nd x) with Ok c => Ok (mk x c) | Err e => Err e end) ->
    (forall x, In x l -> first_error (map nd l) = None -> get_node_colour src_tuple sch (nd x) = Ok (cols (nd x))) ->
    mapM f l = match first_error (map nd l) with None => Ok (map (fun x => mk x (cols (nd x))) l) | Some e => Err e end.
  Proof.
    intros Hf. induction l as [|x l IH]; intros Hc; [reflexivity|]. cbn [mapM map first_error] in *. rewrite Hf by now left.
    destruct (get_node_colour src_tuple sch (nd x)) as [c|e] eqn:E; [|reflexivity]. cbn [bind].
    rewrite IH; [|intros; apply Hf; now right|intros y Hy He; apply Hc; [now right|exact He]].
    destruct (first_error (map nd l)) eqn:E1; [reflexivity|]. cbn [bind]. do 2 f_equal.
    specialize (Hc x (or_introl eq_refl) eq_refl). congruence.
  Qed.
  Lemma first_error_app l m : first_error (l ++ m) = match first_error l with Some e => Some e | None => first_error m end.
  Proof. induction l as [|n l IH]; cbn; [reflexivity|]. destruct (get_node_colour src_tuple sch n); auto. Qed.
  Lemma first_error_None l : first_error l = None <-> forall n, In n l -> exists c, get_node_colour src_tuple sch n = Ok c.
  Proof.
    induction l as [|n l IH]; cbn; [split; [intros _ ? []|reflexivity]|]. destruct (get_node_colour src_tuple sch n) as [c|e] eqn:E.
    - rewrite IH. split; [intros H m [<-|Hm]; eauto|eauto].
    - split; [discriminate|]. intros H. destruct (H n (or_introl eq_refl)). congruence.
  Qed.
  Lemma mapM_ext {E A B} (f g : A -> res E B) l : (forall x, In x l -> f x = g x) -> mapM f l = mapM g l.
  Proof. induction l as [|x l IH]; intros H; cbn; [reflexivity|]. rewrite H by now left. destruct (g x); [|reflexivity]. cbn [bind]. rewrite IH; [reflexivity|]. intros; apply H; now right. Qed.
  Lemma mapM_map {E A B C} (f : B -> res E C) (h : A -> B) l : mapM f (map h l) = mapM (fun x => f (h x)) l.
  Proof. induction l as [|x l IH]; cbn; [reflexivity|]. now rewrite IH. Qed.

  Theorem compile_at_char height progress cols : (forall n c, get_node_colour src_tuple sch n = Ok c -> cols n = c) ->
    compile_at src_tuple T sz nm sch height d progress =
    match first_error all_nodes with None => Ok (drawing_of cols height progress) | Some e => Err e end.
  Proof.
    intros Hcols. unfold compile_at. rewrite (rep_src _ _ _ R), (rep_var _ _ _ R), (rep_val _ _ _ R), (rep_cl _ _ _ R), !ids_snd.
    set (cl := map (enc (variables ts) (values ts)) (claims ts)).
    assert (NDc : NoDup cl).
    { unfold cl. pose proof (claims_NoDup ts) as N. pose proof (claims_var ts) as Hv. pose proof (claims_val ts) as Hw. revert N Hv Hw. generalize (claims ts).
      induction l as [|c l IH]; intros N Hv Hw; cbn; constructor.
      - inversion N as [|? ? Hn Ht]; subst. intros H. apply in_map_iff in H. destruct H as (c' & E & Hc'). unfold enc in E. injection E as E1 E2.
        apply pos_inj in E1; [|apply Hv; now right|apply Hv; now left]. apply pos_inj in E2; [|apply Hw; now right|apply Hw; now left]. apply Hn. destruct c, c'; cbn in *; now subst.
      - inversion N; subst. apply IH; intros; auto; [apply Hv|apply Hw]; now right. }
    rewrite (mapM_indexed _ (fun i s => (i, nm_src nm s)) (sources ts)).
    2:{ intros i s Hi. rewrite inverse_ids, Hi. reflexivity. }
    cbn [bind]. rewrite <- (map_enumerate (nm_src nm)), dict_of_enumerate.
    rewrite (mapM_indexed _ (fun i x => (i, nm_var nm x)) (variables ts)).
    2:{ intros i x Hi. rewrite inverse_ids, Hi. reflexivity. }
    cbn [bind]. rewrite <- (map_enumerate (nm_var nm)), dict_of_enumerate.
    assert (Inv : forall c, In c (claims ts) -> inverse (ids (variables ts)) (pos (fst c) (variables ts)) = Some (fst c) /\ inverse (ids (values ts)) (pos (snd c) (values ts)) = Some (snd c)).
    { intros c Hc. rewrite !inverse_ids. split; apply nth_error_pos; [now apply claims_var|now apply claims_val]. }
    assert (Items : forall {Y} (f : (nat * nat) * nat -> res gerr Y), mapM f (ids cl) = mapM (fun p => f (enc (variables ts) (values ts) (snd p), fst p)) (enumerate (claims ts))).
    { intros Y f. rewrite ids_enumerate. unfold cl. rewrite map_enumerate, map_map. cbn [fst snd]. apply mapM_map. }
    rewrite Items. rewrite (mapM_ok _ (fun p => (fst p, nm_claim nm (fst (snd p)) (snd (snd p))))).
    2:{ intros [j c] Hj. cbn [fst snd enc]. unfold enc. apply enumerate_In, nth_error_In in Hj. destruct (Inv c Hj) as [-> ->]. reflexivity. }
    cbn [bind]. rewrite <- (map_enumerate (fun c => nm_claim nm (fst c) (snd c))), dict_of_enumerate.
    rewrite Items. rewrite (mapM_ok _ (fun p => (fst p, claim_key (snd p)))).
    2:{ intros [j c] Hj. cbn [fst snd]. unfold enc, look. apply enumerate_In in Hj. rewrite !dget_enumerate, !nth_error_map, Hj, nth_error_pos by (apply claims_var; now apply nth_error_In in Hj). reflexivity. }
    cbn [bind]. rewrite <- (map_enumerate claim_key), dict_of_enumerate.
    set (sco := dict_of (map (fun p => (snd p, get_source_coords sz height d (fst p))) _)).
    assert (Hs : forall i s, nth_error (sources ts) i = Some s -> dget sco i = Some (src_at height s)).
    { intros i s Hi. unfold sco. rewrite (dget_coords (nm_src nm) (nm_lt_src nm) (get_source_coords sz height d)) by apply sources_NoDup. rewrite Hi. cbn [option_map]. unfold get_source_coords. rewrite (rep_ns _ _ _ R). reflexivity. }
    clearbody sco.
    set (cco := dict_of (map (fun p => (snd p, get_claim_coords sz height d (fst p))) _)).
    assert (Hc : forall i c, nth_error (claims ts) i = Some c -> dget cco i = Some (claim_at height c)).
    { intros i c Hi. unfold cco. rewrite (dget_coords claim_key (pair_lt (nm_lt_var nm) str_ltb) (get_claim_coords sz height d)) by apply claims_NoDup. rewrite Hi. cbn [option_map]. unfold get_claim_coords. rewrite (rep_nc _ _ _ R). reflexivity. }
    clearbody cco.
    (* variables *)
    assert (Hys : forall x, In x (variables ts) -> mapM (fun item : nat * nat * nat => xy <- look cco (snd item) ;; Ok (snd xy)) (filter (fun item : nat * nat * nat => Nat.eqb (fst (fst item)) (pos x (variables ts))) (ids cl))
      = Ok (map (fun c => snd (claim_at height c)) (filter (fun c => beq (fst c) x) (claims ts)))).
    { intros x Hx. rewrite ids_enumerate. unfold cl. rewrite map_enumerate, map_map. cbn [fst snd].
      assert (G : forall l : list (nat * claim), (forall p, In p l -> nth_error (claims ts) (fst p) = Some (snd p)) ->
        mapM (fun item : nat * nat * nat => xy <- look cco (snd item) ;; Ok (snd xy)) (filter (fun item : nat * nat * nat => Nat.eqb (fst (fst item)) (pos x (variables ts))) (map (fun p => (enc (variables ts) (values ts) (snd p), fst p)) l))
        = Ok (map (fun c => snd (claim_at height c)) (filter (fun c => beq (fst c) x) (map snd l)))).
      { induction l as [|[j c] l IH]; intros Hl; [reflexivity|]. cbn [map filter fst snd]. unfold enc at 1. cbn [fst snd].
        pose proof (Hl (j, c) (or_introl eq_refl)) as Hj. cbn [fst snd] in Hj. specialize (IH (fun p Hp => Hl p (or_intror Hp))).
        destruct (Nat.eqb_spec (pos (fst c) (variables ts)) (pos x (variables ts))) as [E|E].
        - apply pos_inj in E; [|apply claims_var; now apply nth_error_In in Hj|exact Hx]. rewrite E, beq_refl. cbn [mapM snd]. unfold look at 1. rewrite (Hc j c Hj). cbn [of_opt bind]. rewrite IH. reflexivity.
        - rewrite beq_neq by congruence. exact IH. }
      rewrite G; [unfold enumerate; now rewrite map_snd_enum_from|]. intros [j c] Hp. now apply enumerate_In. }
    set (vks := sort_keys_by_value (nm_lt_var nm) (enumerate (map (nm_var nm) (variables ts)))).
    assert (Pv : Permutation vks (seq 0 (length (variables ts)))).
    { unfold vks. rewrite keys_sorted, sort_perm. unfold enumerate. now rewrite map_fst_enum_from. }
    assert (Hv0 : forall k, In k vks -> exists x, nth_error (variables ts) k = Some x).
    { intros k Hk. apply (Permutation_in _ Pv), in_seq in Hk. destruct (nth_error (variables ts) k) eqn:E; [eauto|]. apply nth_error_None in E. lia. }
    assert (NDv : NoDup vks) by (rewrite Pv; apply seq_NoDup).
    set (vat := fun k => match nth_error (variables ts) k with Some x => var_at height x | None => (n_ofZ 0, n_ofZ 0) end).
    rewrite (mapM_ok _ (fun k => (k, vat k))).
    2:{ intros k Hk. destruct (Hv0 k Hk) as [x Hx]. assert (Ep : pos x (variables ts) = k) by (apply pos_nth_error; [apply variables_NoDup|exact Hx]).
        pose proof (Hys x (nth_error_In _ _ Hx)) as Hy. rewrite Ep in Hy. rewrite Hy. cbn [bind]. unfold vat. rewrite Hx. reflexivity. }
    cbn [bind]. rewrite dict_of_distinct by (rewrite map_map; cbn [fst]; now rewrite map_id).
    set (vco := map (fun k => (k, vat k)) vks).
    assert (Hv : forall i x, nth_error (variables ts) i = Some x -> dget vco i = Some (var_at height x)).
    { intros i x Hi. apply In_dget; [unfold dkeys, vco; rewrite map_map; cbn [fst]; now rewrite map_id|]. unfold vco. apply in_map_iff. exists i. unfold vat. rewrite Hi. split; [reflexivity|].
      apply (Permutation_in _ (Permutation_sym Pv)), in_seq. apply nth_lt in Hi. lia. }
    clearbody vco. clear Hys.
    (* edges between sources and claims *)
    rewrite (mapM_nonzero (sc d) (sources ts) (claims ts) (says ts) (fun _ _ => n_ofZ 1) _ (fun s c => compile_edge T sz sch (src_at height s) (claim_at height c))); [|apply (rep_sc _ _ _ R)|intros; apply one_nonzero|].
    2:{ intros i j s c Hi Hj _. rewrite !inverse_ids. unfold cl. rewrite nth_error_map, Hj. cbn [option_map of_opt]. unfold enc. cbn [bind]. rewrite Hi. cbn [of_opt bind].
        destruct (Inv c (nth_error_In _ _ Hj)) as [_ ->]. cbn [of_opt bind]. unfold look. rewrite (Hs _ _ Hi), (Hc _ _ Hj). reflexivity. }
    cbn [bind].
    (* claims *)
    assert (FE : first_error all_nodes = match first_error (map (fun c => NClaim (fst c) (snd c)) (claims ts)) with Some e => Some e | None =>
               match first_error (map NVariable (variables ts)) with Some e => Some e | None => first_error (map NSource (sources ts)) end end).
    { unfold all_nodes. rewrite !first_error_app. reflexivity. }
    assert (Hcol : forall {X} (nd : X -> node S V W) (l : list X) x, In x l -> first_error (map nd l) = None -> get_node_colour src_tuple sch (nd x) = Ok (cols (nd x))).
    { intros X nd l x Hx He. apply first_error_None with (n := nd x) in He; [|now apply in_map]. destruct He as [c Ec]. rewrite Ec. now rewrite (Hcols _ _ Ec). }
    rewrite Items. rewrite (mapM_colours (enumerate (claims ts)) (fun p => NClaim (fst (snd p)) (snd (snd p)))
      (fun p c => compile_edge T sz sch (claim_at height (snd p)) (var_at height (fst (snd p))) ++ node_entities c (nm_claim nm (fst (snd p)) (snd (snd p))) (claim_at height (snd p))) _ cols).
    2:{ intros [j c] Hj. cbn [fst snd]. unfold enc. apply enumerate_In in Hj. pose proof (nth_error_In _ _ Hj) as Hin. destruct (Inv c Hin) as [E1 E2]. rewrite E1, E2. cbn [of_opt bind].
        unfold look. rewrite (Hc _ _ Hj), (Hv _ (fst c)) by (apply nth_error_pos; now apply claims_var). cbn [of_opt bind]. rewrite dget_enumerate, nth_error_map, Hj. cbn [option_map of_opt bind].
        rewrite compile_node_spec. destruct (get_node_colour src_tuple sch (NClaim (fst c) (snd c))); reflexivity. }
    2:{ intros x Hx He. now apply (Hcol _ (fun p : nat * claim => NClaim (fst (snd p)) (snd (snd p))) (enumerate (claims ts)) x). }
    assert (Em : map (fun p : nat * claim => NClaim (fst (snd p)) (snd (snd p))) (enumerate (claims ts)) = map (fun c => NClaim (S:=S) (fst c) (snd c)) (claims ts)).
    { rewrite <- (map_snd_enum_from 0 (claims ts)) at 2. rewrite map_map. reflexivity. }
    rewrite Em. rewrite FE. destruct (first_error (map (fun c => NClaim (fst c) (snd c)) (claims ts))) as [e|]; [reflexivity|]. cbn [bind].
    (* variables *)
    rewrite ids_enumerate, mapM_map. rewrite (mapM_colours (enumerate (variables ts)) (fun p => NVariable (snd p)) (fun p c => node_entities c (nm_show_var nm (nm_var nm (snd p))) (var_at height (snd p))) _ cols).
    2:{ intros [i x] Hi. cbn [fst snd]. apply enumerate_In in Hi. unfold look. rewrite (Hv _ _ Hi), dget_enumerate, nth_error_map, Hi. cbn [option_map of_opt bind]. apply compile_node_spec. }
    2:{ intros x Hx He. now apply (Hcol _ (fun p : nat * V => NVariable (snd p)) (enumerate (variables ts)) x). }
    assert (Ev : map (fun p : nat * V => NVariable (snd p)) (enumerate (variables ts)) = map (@NVariable S V W) (variables ts)).
    { rewrite <- (map_snd_enum_from 0 (variables ts)) at 2. rewrite map_map. reflexivity. }
    rewrite Ev. destruct (first_error (map NVariable (variables ts))) as [e|]; [reflexivity|]. cbn [bind].
    rewrite ids_enumerate, mapM_map. rewrite (mapM_colours (enumerate (sources ts)) (fun p => NSource (snd p)) (fun p c => node_entities c (nm_show_src nm (nm_src nm (snd p))) (src_at height (snd p))) _ cols).
    2:{ intros [i x] Hi. cbn [fst snd]. apply enumerate_In in Hi. unfold look. rewrite (Hs _ _ Hi), dget_enumerate, nth_error_map, Hi. cbn [option_map of_opt bind]. apply compile_node_spec. }
    2:{ intros x Hx He. now apply (Hcol _ (fun p : nat * S => NSource (snd p)) (enumerate (sources ts)) x). }
    assert (Es : map (fun p : nat * S => NSource (snd p)) (enumerate (sources ts)) = map (@NSource S V W) (sources ts)).
    { rewrite <- (map_snd_enum_from 0 (sources ts)) at 2. rewrite map_map. reflexivity. }
    rewrite Es. destruct (first_error (map NSource (sources ts))) as [e|]; [reflexivity|]. cbn [bind].
    unfold drawing_of. rewrite <- flat_map_concat_map.
    rewrite (concat_map_enumerate (fun c => compile_edge T sz sch (claim_at height c) (var_at height (fst c)) ++ node_entities (cols (NClaim (fst c) (snd c))) (nm_claim nm (fst c) (snd c)) (claim_at height c)) (claims ts)).
    rewrite (concat_map_enumerate (fun x => node_entities (cols (NVariable x)) (nm_show_var nm (nm_var nm x)) (var_at height x)) (variables ts)).
    rewrite (concat_map_enumerate (fun x => node_entities (cols (NSource x)) (nm_show_src nm (nm_src nm x)) (src_at height x)) (sources ts)).
    reflexivity.
  Qed.
End CompileRep.
