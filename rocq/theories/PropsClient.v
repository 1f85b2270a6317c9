(** C43-C47: what the clients share: iterator strings, parameter strings, algorithm labels and parameters, output objects. *)
From Coq Require Import NArith String Rdefinitions.
From Verif Require Import Base Num Sparse Spec Dataset DatasetRep Iterators Algorithms Driver PropsRun Results PropsResult PyStr Regex Supervised PropsAcc Client.

(** ** Specification *)
(** [decimal] is right on ASCII *)
Definition decimal_ok (decimal : pychar -> option N) : Prop :=
  forall c, (c < 128)%N -> decimal c = if ((48 <=? c) && (c <=? 57))%N then Some (c - 48)%N else None.
(** a non-empty string of decimal digits, and the number it denotes *)
Definition numeral (decimal : pychar -> option N) (s : pystr) (n : Z) : Prop :=
  s <> [] /\ exists ds : list N, map decimal s = map Some ds /\ n = fold_left (fun a d => 10 * a + d)%Z (map Z.of_N ds) 0%Z.
Definition opt_newline (t : pystr) : Prop := t = [] \/ t = [newline].
Definition no_dash (s : pystr) : Prop := ~ In dash s.
Definition measure_name (m : measure) : option pystr :=
  match m with L1 => Some (lit_str "l1") | L2 => Some (lit_str "l2") | L_INF => Some (lit_str "l_inf") | COSINE => Some (lit_str "cosine") | BadMeasure => None end.
Definition prior_name (p : prior) : option pystr :=
  match p with FIXED => Some (lit_str "fixed") | VOTED => Some (lit_str "voted") | COUNT => Some (lit_str "count") | UNIFORM => Some (lit_str "uniform") | BadPrior => None end.

(** the strings get_iterator accepts, and the iterators they stand for *)
Inductive iterator_spec {F : Num} (pfloat : pystr -> option F) (decimal : pychar -> option N) (max_limit : Z) : pystr -> iterator F -> Prop :=
| SpecFixed ds n tl : numeral decimal ds n -> (n <= max_limit)%Z -> opt_newline tl ->
    iterator_spec pfloat decimal max_limit (lit_str "fixed-" ++ ds ++ tl) (IFixed n 0)
| SpecConv m name th x : measure_name m = Some name -> th <> [] -> no_dash th -> pfloat th = Some x ->
    iterator_spec pfloat decimal max_limit (name ++ lit_str "-convergence-" ++ th) (IConv m x max_limit 0 None)
| SpecConvLimit m name th x ds n tl : measure_name m = Some name -> th <> [] -> no_dash th -> pfloat th = Some x ->
    numeral decimal ds n -> (n <= max_limit)%Z -> opt_newline tl ->
    iterator_spec pfloat decimal max_limit (name ++ lit_str "-convergence-" ++ th ++ lit_str "-limit-" ++ ds ++ tl) (IConv m x n 0 None).

Lemma measure_of_name s m : measure_of s = Some m <-> measure_name m = Some s.
Proof.
  unfold measure_of, measure_values. cbn [dget]. split.
  - repeat match goal with |- context [if beq s ?l then _ else _] => destruct (beq_spec s l) as [->|] end; try discriminate; intros [= <-]; reflexivity.
  - destruct m; cbn [measure_name]; intros [= <-]; reflexivity.
Qed.
Lemma prior_of_name s p : prior_of s = Some p <-> prior_name p = Some s.
Proof.
  unfold prior_of. cbn [dget]. split.
  - repeat match goal with |- context [if beq s ?l then _ else _] => destruct (beq_spec s l) as [->|] end; try discriminate; intros [= <-]; reflexivity.
  - destruct p; cbn [prior_name]; intros [= <-]; reflexivity.
Qed.

Section IteratorStrings.
  Context {F : Num}.
  Variable pfloat : pystr -> option F.
  Variable decimal : pychar -> option N.
  Hypothesis DEC : decimal_ok decimal.

  Lemma newline_not_decimal : decimal newline = None.
  Proof. rewrite DEC; reflexivity. Qed.
  Lemma numeral_int_of s : s <> [] -> (forall c, In c s -> is_decimal decimal c = true) -> numeral decimal s (int_of decimal s).
  Proof.
    intros NE H. split; [exact NE|]. exists (map (fun c => match decimal c with Some d => d | None => 0%N end) s). split.
    - rewrite map_map. apply map_ext_in. intros c Hc. specialize (H c Hc). unfold is_decimal in H. destruct (decimal c); [reflexivity|discriminate].
    - unfold int_of. rewrite map_map. set (dv := fun c => match decimal c with Some d => d | None => 0%N end).
      assert (G : forall a, Z.of_N (fold_left (fun a c => 10 * a + dv c)%N s a) = fold_left (fun a d => 10 * a + d)%Z (map (fun c => Z.of_N (dv c)) s) (Z.of_N a)).
      { clear. induction s as [|c s IH]; intros a; [reflexivity|]. cbn [fold_left map]. rewrite IH. f_equal. lia. }
      exact (G 0%N).
  Qed.
  Lemma numeral_decimal s n : numeral decimal s n -> (forall c, In c s -> is_decimal decimal c = true) /\ n = int_of decimal s /\ s <> [].
  Proof.
    intros (NE & ds & E & ->). assert (H : forall c, In c s -> is_decimal decimal c = true).
    { intros c Hc. apply (in_map decimal) in Hc. rewrite E in Hc. apply in_map_iff in Hc. destruct Hc as (x & Hx & _). unfold is_decimal. now rewrite <- Hx. }
    split; [exact H|]. split; [|exact NE]. destruct (numeral_int_of s NE H) as (_ & ds' & E' & ->). rewrite E in E'. f_equal. f_equal.
    clear - E'. revert ds' E'. induction ds as [|x ds IH]; intros [|y ds']; cbn; intros H; try discriminate; [reflexivity|]. injection H as -> H. f_equal. now apply IH.
  Qed.

  Lemma run_digits ds tl : (forall c, In c ds -> is_decimal decimal c = true) -> opt_newline tl -> run_of (is_decimal decimal) ds tl.
  Proof. intros H [->| ->]; split; auto. unfold is_decimal. now rewrite newline_not_decimal. Qed.
  Lemma not_dash_iff c : not_dash c = true <-> c <> dash.
  Proof. unfold not_dash. rewrite negb_true_iff. apply beq_false. Qed.
  Lemma run_no_dash r t : no_dash r -> match t with [] => True | c :: _ => c = dash end -> run_of not_dash r t.
  Proof.
    intros H Ht. split; [intros c Hc; apply not_dash_iff; intros ->; contradiction|]. destruct t as [|c t]; [exact I|]. subst c. unfold not_dash. now rewrite beq_refl.
  Qed.
  Lemma run_not_dash r t : run_of not_dash r t -> no_dash r /\ match t with [] => True | c :: _ => c = dash end.
  Proof.
    intros [H1 H2]. split; [intros Hin; specialize (H1 _ Hin); unfold not_dash in H1; rewrite beq_refl in H1; discriminate|]. destruct t as [|c t]; [exact I|].
    unfold not_dash in H2. apply negb_false_iff in H2. now apply beq_eq in H2.
  Qed.

  (* \d+ followed by $ *)
  Lemma digits_end s cp cp' : m_rx (RSeq (RGroup 0 (RPlus (is_decimal decimal))) REnd) s cp (fun _ c => Some c) = Some cp' <->
    exists ds tl, s = ds ++ tl /\ ds <> [] /\ (forall c, In c ds -> is_decimal decimal c = true) /\ opt_newline tl /\ cp' = (0, ds) :: cp.
  Proof.
    change (m_rx (RSeq (RGroup 0 (RPlus (is_decimal decimal))) REnd) s cp (fun _ c => Some c))
      with (m_rx (RPlus (is_decimal decimal)) s cp (fun t cp1 => m_rx REnd t ((0, firstn (List.length s - List.length t) s) :: cp1) (fun _ c => Some c))).
    rewrite m_plus_longest.
    - split.
      + intros (r & t & -> & NE & H & E). apply m_end_spec in E. destruct E as [Et [= <-]]. exists r, t. rewrite firstn_prefix. split; [reflexivity|]. split; [exact NE|]. split; [apply H|]. split; [exact Et|reflexivity].
      + intros (ds & tl & -> & NE & H & Ht & ->). exists ds, tl. split; [reflexivity|]. split; [exact NE|]. split; [now apply run_digits|]. apply m_end_spec. split; [exact Ht|]. now rewrite firstn_prefix.
    - intros c u cp1 Hc. destruct (m_rx REnd (c :: u) _ _) as [x|] eqn:E; [|reflexivity]. apply m_end_spec in E. destruct E as [[E|[= -> _]] _]; [discriminate|].
      unfold is_decimal in Hc. rewrite newline_not_decimal in Hc. discriminate.
  Qed.
  Lemma fixed_match s cp : re_match (fixed_regex decimal) s = Some cp <->
    exists ds tl, s = lit_str "fixed-" ++ ds ++ tl /\ ds <> [] /\ (forall c, In c ds -> is_decimal decimal c = true) /\ opt_newline tl /\ cp = [(0, ds)].
  Proof.
    unfold re_match, fixed_regex.
    change (m_rx (RSeq (RLit (lit_str "fixed-")) (RSeq (RGroup 0 (RPlus (is_decimal decimal))) REnd)) s [] (fun _ c => Some c))
      with (m_lit (lit_str "fixed-") s (fun t => m_rx (RSeq (RGroup 0 (RPlus (is_decimal decimal))) REnd) t [] (fun _ c => Some c))).
    rewrite m_lit_spec. split.
    - intros (t & -> & E). apply digits_end in E. destruct E as (ds & tl & -> & H). exists ds, tl. auto.
    - intros (ds & tl & -> & H). exists (ds ++ tl). split; [reflexivity|]. apply digits_end. exists ds, tl. auto.
  Qed.

  (* (-limit-(\d+))?$ *)
  Definition tail_rx : rx := RSeq (ROpt (RSeq (RLit (lit_str "-limit-")) (RGroup 0 (RPlus (is_decimal decimal))))) REnd.
  Lemma tail_unfold s cp : m_rx tail_rx s cp (fun _ c => Some c) =
    match m_lit (lit_str "-limit-") s (fun t => m_rx (RSeq (RGroup 0 (RPlus (is_decimal decimal))) REnd) t cp (fun _ c => Some c)) with
    | Some x => Some x
    | None => m_rx REnd s cp (fun _ c => Some c)
    end.
  Proof. reflexivity. Qed.
  Lemma tail_match s cp cp' : m_rx tail_rx s cp (fun _ c => Some c) = Some cp' <->
    opt_newline s /\ cp' = cp \/
    exists ds tl, s = lit_str "-limit-" ++ ds ++ tl /\ ds <> [] /\ (forall c, In c ds -> is_decimal decimal c = true) /\ opt_newline tl /\ cp' = (0, ds) :: cp.
  Proof.
    rewrite tail_unfold. destruct (m_lit _ _ _) as [x|] eqn:E.
    - apply m_lit_spec in E. destruct E as (t & -> & E). pose proof E as E'. apply digits_end in E. destruct E as (ds & tl & -> & H). split.
      + intros [= <-]. right. exists ds, tl. auto.
      + intros [[[H0|H0] _]|(ds' & tl' & H0 & H')]; [discriminate|discriminate|]. apply app_inv_head in H0.
        assert (E2 : m_rx (RSeq (RGroup 0 (RPlus (is_decimal decimal))) REnd) (ds ++ tl) cp (fun _ c => Some c) = Some cp') by (apply digits_end; exists ds', tl'; auto).
        rewrite E' in E2. exact E2.
    - rewrite m_end_spec. split.
      + intros [H [= <-]]. left. auto.
      + intros [[H ->]|(ds & tl & -> & H)]; [auto|]. exfalso.
        assert (E2 : m_lit (lit_str "-limit-") (lit_str "-limit-" ++ ds ++ tl) (fun t => m_rx (RSeq (RGroup 0 (RPlus (is_decimal decimal))) REnd) t cp (fun _ c => Some c)) = Some cp').
        { apply m_lit_spec. exists (ds ++ tl). split; [reflexivity|]. apply digits_end. exists ds, tl. auto. }
        congruence.
  Qed.
  (* the threshold and what follows: no backtracking changes the outcome *)
  Lemma threshold_match s cp cp' : m_rx (RSeq (RGroup 2 (RPlus not_dash)) tail_rx) s cp (fun _ c => Some c) = Some cp' <->
    exists th t, s = th ++ t /\ th <> [] /\ no_dash th /\ match t with [] => True | c :: _ => c = dash end /\ m_rx tail_rx t ((2, th) :: cp) (fun _ c => Some c) = Some cp'.
  Proof.
    set (K := fun t => m_rx tail_rx t ((2, firstn (List.length s - List.length t) s) :: cp) (fun _ c => Some c)).
    change (m_rx (RSeq (RGroup 2 (RPlus not_dash)) tail_rx) s cp (fun _ c => Some c)) with (match s with c :: t => if not_dash c then m_star not_dash t K else None | [] => None end).
    destruct (run_of_exists not_dash s) as (r & t & Es & H). pose proof (run_not_dash r t H) as [Hr Ht].
    assert (Kt : K t = m_rx tail_rx t ((2, r) :: cp) (fun _ c => Some c)) by (unfold K; rewrite Es, firstn_prefix; reflexivity).
    assert (Kn : forall c u, (exists v, tl r = v ++ c :: u) -> t <> [] -> K (c :: u ++ t) = None).
    { intros c u [v Ev] NEt. destruct (K (c :: u ++ t)) as [x|] eqn:E; [|reflexivity]. exfalso. unfold K in E. apply tail_match in E.
      destruct E as [[[E|E] _]|(ds & tl & E & _)]; [discriminate|injection E as _ E; destruct u; [now apply NEt|discriminate]|]. injection E as E _. subst c.
      apply Hr. destruct r as [|c0 r]; [now destruct v|]. cbn in Ev. right. rewrite Ev. apply in_or_app. right. now left. }
    assert (Main : r <> [] -> match s with c :: t => if not_dash c then m_star not_dash t K else None | [] => None end = K t).
    { intros NE. destruct r as [|c r]; [congruence|]. rewrite Es. cbn [app]. destruct H as [H1 H2]. rewrite (H1 c (or_introl eq_refl)). apply m_star_longest'; [split; [intros x Hx; apply H1; now right|exact H2]|].
      destruct t as [|d t]; [left; rewrite Kt; discriminate|]. right. intros c' u Hv. apply Kn; [exact Hv|discriminate]. }
    split.
    - intros E. assert (NE : r <> []).
      { intros ->. cbn in Es. subst s. destruct t as [|d t]; [discriminate|]. subst d. unfold not_dash in E. rewrite beq_refl in E. discriminate. }
      rewrite (Main NE), Kt in E. exists r, t. auto.
    - intros (th & t' & Es' & NE' & Hth & Ht' & E). assert (Q : r = th /\ t = t').
      { apply (run_of_unique not_dash r t th t'); [congruence|exact H|now apply run_no_dash]. }
      destruct Q as [-> ->]. rewrite (Main NE'), Kt. exact E.
  Qed.
  Lemma convergence_match s cp : re_match (convergence_regex decimal) s = Some cp <->
    exists ms th, ms <> [] /\ no_dash ms /\ th <> [] /\ no_dash th /\
      ((s = ms ++ lit_str "-convergence-" ++ th /\ cp = [(2, th); (1, ms)]) \/
       exists ds tl, s = ms ++ lit_str "-convergence-" ++ th ++ lit_str "-limit-" ++ ds ++ tl /\ ds <> [] /\ (forall c, In c ds -> is_decimal decimal c = true) /\ opt_newline tl /\
         cp = [(0, ds); (2, th); (1, ms)]).
  Proof.
    unfold re_match. set (K := fun t cp1 => m_lit (lit_str "-convergence-") t (fun u => m_rx (RSeq (RGroup 2 (RPlus not_dash)) tail_rx) u ((1, firstn (List.length s - List.length t) s) :: cp1) (fun _ c => Some c))).
    change (m_rx (convergence_regex decimal) s [] (fun _ c => Some c)) with (m_rx (RPlus not_dash) s [] K).
    rewrite m_plus_longest.
    2:{ intros c u cp1 Hc. unfold K. destruct (m_lit _ _ _) as [x|] eqn:E; [|reflexivity]. apply m_lit_spec in E. destruct E as (t & E & _). injection E as -> _. discriminate. }
    split.
    - intros (ms & t & Es & NE & H & E). pose proof (run_not_dash _ _ H) as [Hm _]. unfold K in E. rewrite Es, firstn_prefix in E. apply m_lit_spec in E. destruct E as (u & -> & E).
      apply threshold_match in E. destruct E as (th & t & -> & NEth & Hth & Ht & E). exists ms, th. split; [exact NE|]. split; [exact Hm|]. split; [exact NEth|]. split; [exact Hth|].
      apply tail_match in E. destruct E as [[Eo ->]|(ds & tl & -> & NEd & Hd & Htl & ->)].
      + left. destruct Eo as [->| ->]; [|discriminate]. rewrite app_nil_r in Es. auto.
      + right. exists ds, tl. rewrite Es. auto.
    - intros (ms & th & NE & Hm & NEth & Hth & C). destruct C as [[Es ->]|(ds & tl & Es & NEd & Hd & Htl & ->)].
      + exists ms, (lit_str "-convergence-" ++ th). split; [exact Es|]. split; [exact NE|]. split; [apply run_no_dash; [exact Hm|reflexivity]|]. unfold K. rewrite Es, firstn_prefix. apply m_lit_spec. exists th. split; [reflexivity|].
        apply threshold_match. exists th, []. rewrite app_nil_r. split; [reflexivity|]. split; [exact NEth|]. split; [exact Hth|]. split; [exact I|]. apply tail_match. left. split; [now left|reflexivity].
      + exists ms, (lit_str "-convergence-" ++ th ++ lit_str "-limit-" ++ ds ++ tl). split; [exact Es|]. split; [exact NE|]. split; [apply run_no_dash; [exact Hm|reflexivity]|]. unfold K. rewrite Es, firstn_prefix. apply m_lit_spec.
        exists (th ++ lit_str "-limit-" ++ ds ++ tl). split; [reflexivity|]. apply threshold_match. exists th, (lit_str "-limit-" ++ ds ++ tl). split; [reflexivity|]. split; [exact NEth|]. split; [exact Hth|]. split; [reflexivity|].
        apply tail_match. right. exists ds, tl. auto.
  Qed.

  (** C43: exactly the documented strings are accepted, each giving exactly the iterator it describes *)
  Theorem C43_accepts_iff max_limit s it : get_iterator pfloat decimal max_limit s = Ok it <-> iterator_spec pfloat decimal max_limit s it.
  Proof.
    split.
    - unfold get_iterator. destruct (re_match (fixed_regex decimal) s) as [cp|] eqn:E1.
      + apply fixed_match in E1. destruct E1 as (ds & tl & -> & NE & Hd & Ht & ->). cbn [group dget]. rewrite (beq_refl 0). destruct (Z.ltb_spec max_limit (int_of decimal ds)) as [L|L]; [discriminate|].
        cbn [mk_fixed]. destruct (Z.ltb_spec (int_of decimal ds) 0) as [L'|L']; [discriminate|]. intros [= <-]. constructor; [now apply numeral_int_of|exact L|exact Ht].
      + clear E1. destruct (re_match (convergence_regex decimal) s) as [cp|] eqn:E2; [|discriminate]. apply convergence_match in E2. destruct E2 as (ms & th & NE & Hm & NEth & Hth & C).
        destruct C as [[Es ->]|(ds & tl & Es & NEd & Hd & Htl & ->)]; cbn [group dget beq Eqb_nat Nat.eqb];
          (destruct (measure_of ms) as [m|] eqn:Em; [|discriminate]); (destruct (pfloat th) as [x|] eqn:Ex; [|discriminate]); apply measure_of_name in Em.
        * intros [= <-]. subst s. now apply SpecConv.
        * destruct (Z.ltb_spec max_limit (int_of decimal ds)) as [L|L]; [discriminate|]. intros [= <-]. subst s. apply SpecConvLimit; try assumption. now apply numeral_int_of.
    - assert (Nf : forall m name t, measure_name m = Some name -> re_match (fixed_regex decimal) (name ++ t) = None) by (intros [] name t [= <-]; reflexivity).
      assert (Hn : forall m name, measure_name m = Some name -> name <> [] /\ no_dash name) by (intros [] name [= <-]; (split; [discriminate|]); unfold no_dash; cbn [lit_str In]; intros Hin; repeat destruct Hin as [Hin|Hin]; try contradiction; vm_compute in Hin; discriminate).
      intros H. unfold get_iterator. destruct H as [ds n tl Hn' Hmax Htl|m name th x Hm NEth Hth Hx|m name th x ds n tl Hm NEth Hth Hx Hn' Hmax Htl].
      + apply numeral_decimal in Hn'. destruct Hn' as (Hd & -> & NE). assert (E : re_match (fixed_regex decimal) (lit_str "fixed-" ++ ds ++ tl) = Some [(0, ds)]) by (apply fixed_match; exists ds, tl; auto).
        rewrite E. cbn [group dget]. rewrite (beq_refl 0). destruct (Z.ltb_spec max_limit (int_of decimal ds)); [lia|]. cbn [mk_fixed]. destruct (Z.ltb_spec (int_of decimal ds) 0) as [L|_]; [unfold int_of in L; lia|reflexivity].
      + destruct (Hn _ _ Hm) as [NEn Hnn]. rewrite (Nf m name _ Hm).
        assert (E : re_match (convergence_regex decimal) (name ++ lit_str "-convergence-" ++ th) = Some [(2, th); (1, name)]) by (apply convergence_match; exists name, th; auto 10).
        rewrite E. cbn [group dget beq Eqb_nat Nat.eqb]. apply measure_of_name in Hm. rewrite Hm, Hx. reflexivity.
      + destruct (Hn _ _ Hm) as [NEn Hnn]. rewrite (Nf m name _ Hm). apply numeral_decimal in Hn'. destruct Hn' as (Hd & -> & NE).
        assert (E : re_match (convergence_regex decimal) (name ++ lit_str "-convergence-" ++ th ++ lit_str "-limit-" ++ ds ++ tl) = Some [(0, ds); (2, th); (1, name)]).
        { apply convergence_match. exists name, th. split; [exact NEn|]. split; [exact Hnn|]. split; [exact NEth|]. split; [exact Hth|]. right. exists ds, tl. auto. }
        rewrite E. cbn [group dget beq Eqb_nat Nat.eqb]. apply measure_of_name in Hm. rewrite Hm, Hx. destruct (Z.ltb_spec max_limit (int_of decimal ds)); [lia|reflexivity].
  Qed.
  (** every other string is refused with a ValueError *)
  Theorem C43_refuses max_limit s : (forall it, ~ iterator_spec pfloat decimal max_limit s it) -> exists e, get_iterator pfloat decimal max_limit s = Err e /\ is_value_error e.
  Proof.
    intros N. destruct (get_iterator pfloat decimal max_limit s) as [it|e] eqn:E; [exfalso; apply (N it); now apply C43_accepts_iff|]. exists e. split; [reflexivity|].
    unfold get_iterator in E. destruct (re_match (fixed_regex decimal) s) as [cp|] eqn:E1.
    - destruct (Z.ltb_spec max_limit (int_of decimal match group cp 0 with Some s => s | None => [] end)); [injection E as <-; exact I|]. cbn [mk_fixed] in E.
      destruct (Z.ltb_spec (int_of decimal match group cp 0 with Some s => s | None => [] end) 0) as [L|_]; [unfold int_of in L; lia|discriminate].
    - destruct (re_match (convergence_regex decimal) s) as [cp|]; [|injection E as <-; exact I]. destruct (measure_of _); [|injection E as <-; exact I]. destruct (pfloat _); [|injection E as <-; exact I].
      destruct (group cp 0) as [ds|]; [|discriminate]. destruct (Z.ltb max_limit (int_of decimal ds)); [injection E as <-; exact I|discriminate].
  Qed.
End IteratorStrings.

(** ** C43: an iterator that came from a string never performs more than max_limit rounds *)
Section UserIterators.
  Context {S V W : Type} {ES : Eqb S} {EV : Eqb V} {EW : Eqb W} {F : Num} {FOK : NumOK F}.
  Variable pfloat : pystr -> option F.
  Variable decimal : pychar -> option N.
  Hypothesis DEC : decimal_ok decimal.

  Theorem C43_bounded b impf (ts : list (S * V * W)) (d : dataset S V W F) max_limit s it : build b impf ts = Ok d ->
    get_iterator pfloat decimal max_limit s = Ok it -> (0 <= max_limit)%Z ->
    forall clock fuel a p lg r o', run clock fuel (AObj a p it lg) d = (Ok r, o') -> exists k, r_iterations r = Some k /\ (Z.of_nat k <= max_limit)%Z.
  Proof.
    intros Hb E M clock fuel a p lg r o' H. apply (C43_accepts_iff pfloat decimal DEC) in E. destruct E as [ds n tl Hn Hmax _|m name th x _ _ _ _|m name th x ds n tl _ _ _ _ Hn Hmax _].
    - destruct (C28_fixed b impf ts d Hb _ _ _ _ _ _ _ _ _ H) as (k & Ek & Hk & _). exists k. split; [exact Ek|]. lia.
    - destruct (C28_convergence b impf ts d Hb _ _ _ _ _ _ _ _ _ _ _ _ H) as (k & Ek & Hk & _). exists k. split; [exact Ek|]. lia.
    - destruct (C28_convergence b impf ts d Hb _ _ _ _ _ _ _ _ _ _ _ _ H) as (k & Ek & Hk & _). exists k. split; [exact Ek|]. lia.
  Qed.
  (** ... and the run ends, with a result or with a ConvergenceError *)
  Theorem C43_ends b impf (ts : list (S * V * W)) (d : dataset S V W F) max_limit s it : build b impf ts = Ok d -> ts <> [] ->
    get_iterator pfloat decimal max_limit s = Ok it -> (0 <= max_limit)%Z ->
    forall clock fuel a p lg, a <> UnboundedSums -> p <> BadPrior -> Z.to_nat max_limit < fuel ->
    (exists r, fst (run clock fuel (AObj a p it lg) d) = Ok r) \/ fst (run clock fuel (AObj a p it lg) d) = Err ConvergenceError.
  Proof.
    intros Hb NE E M clock fuel a p lg Ha Hp Hf. apply (C43_accepts_iff pfloat decimal DEC) in E. destruct E as [ds n tl Hn Hmax _|m name th x Em _ _ _|m name th x ds n tl Em _ _ _ Hn Hmax _].
    - left. apply (C28_fixed_returns b impf ts d Hb); try assumption. lia.
    - apply (C28_convergence_ends b impf ts d Hb); try assumption. intros ->. discriminate.
    - apply (C28_convergence_ends b impf ts d Hb); try assumption; [|lia]. intros ->. discriminate.
  Qed.
End UserIterators.

(** ** C44 *)
Section ParameterStrings.
  Context {F : Num}.
  Variable pfloat : pystr -> option F.
  Variable decimal : pychar -> option N.
  Lemma split_once_spec sep s a b : split_once sep s = Some (a, b) <-> s = a ++ sep :: b /\ ~ In sep a.
  Proof.
    revert a. induction s as [|c s IH]; intros a; cbn [split_once].
    - split; [discriminate|]. intros [E _]. destruct a; discriminate.
    - destruct (beq_spec c sep) as [->|N].
      + split; [intros [= <- <-]; split; [reflexivity|intros []]|]. intros [E Hn]. destruct a as [|x a]; [now injection E as ->|]. injection E as <- _. exfalso. apply Hn. now left.
      + split.
        * destruct (split_once sep s) as [[a' b']|] eqn:Es; [|discriminate]. intros [= <- <-]. destruct (proj1 (IH a') eq_refl) as [-> Hn]. split; [reflexivity|]. intros [H|H]; [now apply N|contradiction].
        * intros [E Hn]. destruct a as [|x a]; [injection E as -> _; contradiction|]. injection E as <- E. assert (Q : split_once sep s = Some (a, b)) by (apply IH; split; [exact E|intros H; apply Hn; now right]). now rewrite Q.
  Qed.
  Lemma split_once_None sep s : split_once sep s = None <-> ~ In sep s.
  Proof.
    split.
    - intros E Hin. apply in_split in Hin. destruct Hin as (l1 & l2 & ->). assert (G : exists a b, l1 ++ sep :: l2 = a ++ sep :: b /\ ~ In sep a).
      { clear E. induction l1 as [|c l1 (a & b & E & Hn)]; [exists [], l2; split; [reflexivity|intros []]|]. destruct (beq_spec c sep) as [->|N].
        - exists [], (l1 ++ sep :: l2). split; [reflexivity|intros []].
        - exists (c :: a), b. split; [cbn; now rewrite E|]. intros [H|H]; [now apply N|contradiction]. }
      destruct G as (a & b & Ea & Hn). assert (Q : split_once sep (l1 ++ sep :: l2) = Some (a, b)) by (apply split_once_spec; auto). congruence.
    - intros Hn. destruct (split_once sep s) as [[a b]|] eqn:E; [|reflexivity]. apply split_once_spec in E. destruct E as [-> _]. exfalso. apply Hn. apply in_or_app. right. now left.
  Qed.
  (** how the text of a value is converted, depending on the name of the parameter *)
  Definition value_spec (name text : pystr) (v : pvalue F) : Prop :=
    (name = lit_str "iterator" /\ exists it, iterator_spec pfloat decimal 200 text it /\ v = PIterator it) \/
    (name = lit_str "priors" /\ exists p, prior_name p = Some text /\ v = PPrior p) \/
    (name <> lit_str "iterator" /\ name <> lit_str "priors" /\ exists x, pfloat text = Some x /\ v = PFloat x).
  Hypothesis DEC : decimal_ok decimal.
  Theorem C44_accepts_iff s k v : algorithm_parameter pfloat decimal s = Ok (k, v) <->
    exists a b, s = a ++ equals_sign :: b /\ ~ In equals_sign a /\ k = strip a /\ value_spec (strip a) (strip b) v.
  Proof.
    unfold algorithm_parameter. split.
    - destruct (split_once equals_sign s) as [[a b]|] eqn:E; [|discriminate]. apply split_once_spec in E. destruct E as [-> Hn]. cbv zeta. intros H. exists a, b. split; [reflexivity|]. split; [exact Hn|].
      unfold value_spec. destruct (beq_spec (strip a) (lit_str "iterator")) as [Ea|Na].
      + destruct (get_iterator pfloat decimal 200 (strip b)) as [it|e] eqn:Ei; [|discriminate]. injection H as <- <-. split; [reflexivity|]. left. split; [exact Ea|]. exists it. split; [now apply (C43_accepts_iff pfloat decimal DEC)|reflexivity].
      + destruct (beq_spec (strip a) (lit_str "priors")) as [Ea|Na'].
        * destruct (prior_of (strip b)) as [p|] eqn:Ep; [|discriminate]. injection H as <- <-. split; [reflexivity|]. right. left. split; [exact Ea|]. exists p. split; [now apply prior_of_name|reflexivity].
        * destruct (pfloat (strip b)) as [x|] eqn:Ex; [|discriminate]. injection H as <- <-. split; [reflexivity|]. right. right. eauto.
    - intros (a & b & -> & Hn & -> & C). assert (E : split_once equals_sign (a ++ equals_sign :: b) = Some (a, b)) by (apply split_once_spec; auto). rewrite E. cbv zeta.
      destruct C as [(Ea & it & Hi & ->)|[(Ea & p & Hp & ->)|(Na & Na' & x & Hx & ->)]].
      + rewrite Ea, beq_refl. apply (C43_accepts_iff pfloat decimal DEC) in Hi. now rewrite Hi.
      + rewrite Ea. rewrite (beq_neq (lit_str "priors") (lit_str "iterator")) by discriminate. rewrite beq_refl. apply prior_of_name in Hp. now rewrite Hp.
      + rewrite (beq_neq _ _ Na), (beq_neq _ _ Na'), Hx. reflexivity.
  Qed.
  (** everything else is a ValueError; in particular a string without '=' *)
  Theorem C44_refuses s e : algorithm_parameter pfloat decimal s = Err e -> is_value_error e.
  Proof.
    unfold algorithm_parameter. destruct (split_once equals_sign s) as [[a b]|]; [|intros [= <-]; exact I]. cbv zeta. destruct (beq (strip a) (lit_str "iterator")).
    - destruct (get_iterator pfloat decimal 200 (strip b)) as [it|e'] eqn:E; [discriminate|]. intros [= <-].
      destruct (C43_refuses pfloat decimal DEC 200 (strip b)) as (e & E' & H); [|congruence]. intros it Hi. apply (C43_accepts_iff pfloat decimal DEC) in Hi. congruence.
    - destruct (beq (strip a) (lit_str "priors")); [destruct (prior_of (strip b)); [discriminate|intros [= <-]; exact I]|destruct (pfloat (strip b)); [discriminate|intros [= <-]; exact I]].
  Qed.
  Theorem C44_no_equals_sign s : ~ In equals_sign s <-> algorithm_parameter pfloat decimal s = Err BadParameterForm.
  Proof.
    rewrite <- split_once_None. unfold algorithm_parameter. destruct (split_once equals_sign s) as [[a b]|]; [|tauto]. split; [discriminate|]. intros H. exfalso. cbv zeta in H.
    destruct (beq (strip a) (lit_str "iterator")).
    - unfold get_iterator in H. destruct (re_match (fixed_regex decimal) (strip b)) as [cp|]; [destruct (Z.ltb _ _); [discriminate|]; destruct (mk_fixed _); discriminate|].
      destruct (re_match (convergence_regex decimal) (strip b)) as [cp|]; [|discriminate]. destruct (measure_of _); [|discriminate]. destruct (pfloat _); [|discriminate]. destruct (group cp 0); [destruct (Z.ltb _ _)|]; discriminate.
    - destruct (beq (strip a) (lit_str "priors")); [destruct (prior_of (strip b)); discriminate|destruct (pfloat (strip b)); discriminate].
  Qed.
End ParameterStrings.

(** ** C47 *)
Definition label_table : list (pystr * cls) :=
  [(lit_str "average_log", CAverageLog); (lit_str "investment", CInvestment); (lit_str "pooled_investment", CPooledInvestment); (lit_str "sums", CSums);
   (lit_str "usums", CUnboundedSums); (lit_str "truthfinder", CTruthFinder); (lit_str "crh", CCRH); (lit_str "voting", CMajorityVoting)].
Theorem C47_labels l c : (algorithm_cls l = Ok c <-> In (l, c) label_table) /\ (label_of c = Some l <-> In (l, c) label_table).
Proof.
  split; split.
  - unfold algorithm_cls. destruct (dget alg_labels l) as [c'|] eqn:E; [|discriminate]. intros [= <-]. now apply dget_In in E.
  - intros H. unfold label_table in H. cbn [In] in H. repeat destruct H as [H|H]; try contradiction; injection H as <- <-; reflexivity.
  - unfold label_of. intros E. apply dget_In in E. apply in_map_iff in E. destruct E as ([l' c'] & [= -> ->] & H). exact H.
  - intros H. unfold label_table in H. cbn [In] in H. repeat destruct H as [H|H]; try contradiction; injection H as <- <-; reflexivity.
Qed.
(** different labels select different algorithms *)
Theorem C47_one_to_one l l' c c' : algorithm_cls l = Ok c -> algorithm_cls l' = Ok c' -> (l = l' <-> c = c').
Proof.
  intros H H'. split; [intros ->; congruence|]. intros <-. apply C47_labels, C47_labels in H. apply C47_labels, C47_labels in H'. congruence.
Qed.
Theorem C47_unknown l : (forall c, ~ In (l, c) label_table) -> algorithm_cls l = Err BadAlgorithmLabel.
Proof.
  intros H. unfold algorithm_cls. destruct (dget alg_labels l) as [c|] eqn:E; [|reflexivity]. exfalso. apply (H c). now apply dget_In in E.
Qed.

(** ** C45 *)
(** the parameters the constructors document *)
Definition documented (c : cls) : list pystr :=
  map lit_str match c with
  | CSums | CAverageLog | CUnboundedSums => ["iterator"; "priors"]
  | CInvestment | CPooledInvestment => ["g"; "iterator"; "priors"]
  | CTruthFinder => ["influence_param"; "dampening_factor"; "initial_trust"; "iterator"; "priors"]
  | CCRH => ["eps"; "iterator"; "priors"]
  | _ => []
  end%string.
Definition client_class (c : cls) : Prop := exists l, In (l, c) label_table.
Lemma client_classes c : client_class c -> In c [CAverageLog; CInvestment; CPooledInvestment; CSums; CUnboundedSums; CTruthFinder; CCRH; CMajorityVoting].
Proof. intros [l H]. apply (in_map snd) in H. exact H. Qed.
Lemma parameter_names_documented c k : client_class c -> In k (parameter_names c) <-> In k (documented c).
Proof.
  intros H. apply client_classes in H. cbn [In] in H.
  repeat destruct H as [<-|H]; try contradiction; match goal with |- In k (parameter_names ?c) <-> _ => let v := eval vm_compute in (parameter_names c) in let w := eval vm_compute in (documented c) in change (In k v <-> In k w) end; cbn [In]; tauto.
Qed.

Lemma nodup_app {A} (l m : list A) : NoDup l -> NoDup m -> (forall x, In x l -> In x m -> False) -> NoDup (l ++ m).
Proof.
  intros Hl Hm D. induction Hl as [|x l Hx Hl IH]; [exact Hm|]. cbn. constructor; [|apply IH; intros y Hy; apply D; now right].
  intros H. apply in_app_or in H. destruct H as [H|H]; [contradiction|]. apply (D x); [now left|exact H].
Qed.
Section Parameters.
  Context {F : Num}.
  Variable ord : list pystr -> list pystr.
  Hypothesis Ord : forall l, Permutation l (ord l).
  (** every given parameter is either kept, unchanged, because the constructor takes it, or listed as ignored *)
  Theorem C45_split c (params : dict pystr (pvalue F)) : client_class c -> NoDup (dkeys params) ->
    let (kept, ignored) := get_algorithm_params ord c params in
    (forall k, dget kept k = if mem k (documented c) then dget params k else None) /\
    (forall k, In k ignored <-> dget params k <> None /\ ~ In k (documented c)) /\
    NoDup (dkeys kept) /\ NoDup ignored /\ length kept + length ignored = length params.
  Proof.
    intros Hc ND. unfold get_algorithm_params. set (names := ord (parameter_names c)).
    assert (Hn : forall k, mem k names = mem k (documented c)).
    { intros k. apply eq_true_iff_eq. rewrite !mem_In. rewrite <- (parameter_names_documented c k Hc). unfold names. split; intros H; [eapply Permutation_in; [apply Permutation_sym, Ord|exact H]|eapply Permutation_in; [apply Ord|exact H]]. }
    assert (Hd : forall k, dget (dict_of (filter_dict params names)) k = if mem k (documented c) then dget params k else None).
    { intros k. pose proof (dget_filter_scores params (Some names) k) as Q. cbn [filter_scores wanted] in Q. rewrite Q, Hn. reflexivity. }
    set (kept := dict_of (filter_dict params names)) in *. assert (NDk : NoDup (dkeys kept)) by apply dict_of_NoDup.
    assert (Hk : forall k, In k (dkeys kept) <-> dget params k <> None /\ In k (documented c)).
    { intros k. split.
      - intros H. assert (Q : dget kept k <> None) by (intros Q; apply dget_None in Q; contradiction). rewrite Hd in Q. destruct (mem k (documented c)) eqn:M; [|congruence]. apply mem_In in M. auto.
      - intros [H1 H2]. destruct (in_dec eq_dec_of k (dkeys kept)) as [|Hno]; [assumption|]. apply dget_None in Hno. rewrite Hd in Hno. apply mem_In in H2. rewrite H2 in Hno. contradiction. }
    assert (Hi : forall k, In k (filter (fun k => negb (mem k (dkeys kept))) (dkeys params)) <-> dget params k <> None /\ ~ In k (documented c)).
    { intros k. rewrite filter_In, negb_true_iff, mem_false, Hk. assert (In k (dkeys params) <-> dget params k <> None); [|tauto]. rewrite dget_None. destruct (in_dec eq_dec_of k (dkeys params)); tauto. }
    split; [exact Hd|]. split; [exact Hi|]. split; [exact NDk|]. split; [now apply NoDup_filter|].
    rewrite <- (map_length fst kept), <- (map_length fst params). change (map fst kept) with (dkeys kept). change (map fst params) with (dkeys params).
    assert (P : Permutation (dkeys params) (dkeys kept ++ filter (fun k => negb (mem k (dkeys kept))) (dkeys params))).
    { apply NoDup_Permutation; [exact ND| |].
      - apply nodup_app; [exact NDk|now apply NoDup_filter|]. intros k H1 H2. apply filter_In in H2. rewrite negb_true_iff, mem_false in H2. tauto.
      - intros k. rewrite in_app_iff, Hk, Hi. assert (In k (dkeys params) <-> dget params k <> None) by (rewrite dget_None; destruct (in_dec eq_dec_of k (dkeys params)); tauto). destruct (in_dec eq_dec_of k (documented c)); tauto. }
    apply Permutation_length in P. rewrite app_length in P. lia.
  Qed.

  (** the values of the parameters have the types algorithm_parameter gives them *)
  Definition typed (name : pystr) (v : pvalue F) : Prop :=
    match v with PIterator _ => name = lit_str "iterator" | PPrior _ => name = lit_str "priors" | PFloat _ => name <> lit_str "iterator" /\ name <> lit_str "priors" end.
  Definition well_typed (params : dict pystr (pvalue F)) : Prop := forall k v, dget params k = Some v -> typed k v.
  (** parameters read from strings, later ones overriding earlier ones *)
  Theorem C45_parsed_typed pfloat decimal (DEC : decimal_ok decimal) strs (items : list (pystr * pvalue F)) :
    Forall2 (fun s it => algorithm_parameter pfloat decimal s = Ok it) strs items -> well_typed (dict_of items) /\ NoDup (dkeys (dict_of items)).
  Proof.
    intros H. split; [|apply dict_of_NoDup]. intros k v E. assert (Hin : In (k, v) items).
    { assert (G : forall (l : list (pystr * pvalue F)) d, dget (fold_left (fun d kv => dset d (fst kv) (snd kv)) l d) k = Some v -> In (k, v) l \/ dget d k = Some v).
      { clear. induction l as [|[k' v'] l IH]; intros d; cbn [fold_left fst snd]; [auto|]. intros E. destruct (IH _ E) as [H|H]; [left; now right|]. rewrite dget_dset in H. destruct (beq_spec k k') as [->|]; [injection H as ->; left; now left|auto]. }
      destruct (G items [] E) as [H'|H']; [exact H'|discriminate]. }
    clear E. induction H as [|s it strs items E _ IH]; [destruct Hin|]. destruct Hin as [->|Hin]; [|auto]. apply (C44_accepts_iff pfloat decimal DEC) in E.
    destruct E as (a & b & _ & _ & -> & [(Ea & it & _ & ->)|[(Ea & p & _ & ->)|(Na & Na' & x & _ & ->)]]); cbn; auto.
  Qed.
  (** the object that is constructed: given values where given, class defaults otherwise *)
  Definition float_given (params : dict pystr (pvalue F)) (name : pystr) (default : F) : F := match dget params name with Some (PFloat x) => x | _ => default end.
  Definition iterator_given (params : dict pystr (pvalue F)) (default : iterator F) : iterator F := match dget params (lit_str "iterator") with Some (PIterator it) => it | _ => default end.
  Definition prior_given (params : dict pystr (pvalue F)) (default : prior) : prior := match dget params (lit_str "priors") with Some (PPrior p) => p | _ => default end.
  Definition requested {S V W} (c : cls) (params : dict pystr (pvalue F)) : option (cobj F S V W) :=
    let fl n dflt := float_given params (lit_str n) dflt in
    let mk a it p := Some (OIterative (AObj a (prior_given params p) (iterator_given params it) None)) in
    match c with
    | CMajorityVoting => Some OVoting
    | CSums => mk Sums (IFixed 20 0) FIXED
    | CAverageLog => mk AverageLog (IFixed 20 0) FIXED
    | CInvestment => mk (Investment (fl "g"%string (lit 12 10))) (IFixed 20 0) VOTED
    | CPooledInvestment => mk (PooledInvestment (fl "g"%string (lit 14 10))) (IFixed 10 0) UNIFORM
    | CTruthFinder => mk (TruthFinder (fl "influence_param"%string (lit 5 10)) (fl "dampening_factor"%string (lit 3 10)) (fl "initial_trust"%string (lit 9 10)))
                        (IConv COSINE (lit 1 1000) 1000000 0 None) FIXED
    | CCRH => mk (CRH (fl "eps"%string (lit 1 100000))) (IFixed 20 0) FIXED
    | CUnboundedSums => mk UnboundedSums (IOrd 20 0 0) COUNT
    | _ => None
    end.
  (** construction from the kept parameters always succeeds, and uses exactly the given values *)
  Theorem C45_constructs {S V W} c (params : dict pystr (pvalue F)) : client_class c -> NoDup (dkeys params) -> well_typed params ->
    exists o : cobj F S V W, requested c params = Some o /\ get_algorithm_object c (fst (get_algorithm_params ord c params)) = Ok o.
  Proof.
    intros Hc ND Ty. pose proof (C45_split c params Hc ND) as Sp. destruct (get_algorithm_params ord c params) as [kept ignored]. destruct Sp as (Hk & _ & NDk & _). cbn [fst].
    assert (Keys : forall k, In k (dkeys kept) -> In k (documented c)).
    { intros k Hin. destruct (mem k (documented c)) eqn:M; [now apply mem_In|]. exfalso. specialize (Hk k). rewrite M in Hk. apply dget_None in Hk. contradiction. }
    assert (It : forall c' : option (iterator F), mem (lit_str "iterator") (documented c) = true -> match dget kept (lit_str "iterator") with None => Ok None | Some (PIterator it) => Ok (Some it) | Some _ => Err IllTyped end =
        Ok (E := cerr) match dget params (lit_str "iterator") with Some (PIterator it) => Some it | _ => None end).
    { intros _ M. rewrite Hk, M. destruct (dget params (lit_str "iterator")) as [v|] eqn:E; [|reflexivity]. apply Ty in E. destruct v; unfold typed in E; [reflexivity|discriminate|destruct E; congruence]. }
    assert (Pr : mem (lit_str "priors") (documented c) = true -> match dget kept (lit_str "priors") with None => Ok None | Some (PPrior p) => Ok (Some p) | Some _ => Err IllTyped end =
        Ok (E := cerr) match dget params (lit_str "priors") with Some (PPrior p) => Some p | _ => None end).
    { intros M. rewrite Hk, M. destruct (dget params (lit_str "priors")) as [v|] eqn:E; [|reflexivity]. apply Ty in E. destruct v; unfold typed in E; [discriminate|reflexivity|destruct E; congruence]. }
    assert (Fl : forall n, mem n (documented c) = true -> n <> lit_str "iterator" -> n <> lit_str "priors" ->
        kw_float kept n = Ok match dget params n with Some (PFloat x) => Some x | _ => None end).
    { intros n M N1 N2. unfold kw_float. rewrite Hk, M. destruct (dget params n) as [v|] eqn:E; [|reflexivity]. apply Ty in E. destruct v; unfold typed in E; congruence || reflexivity. }
    assert (Base : forall own a, (forall k, In k (documented c) -> In k (own ++ [lit_str "iterator"; lit_str "priors"])) -> mem (lit_str "iterator") (documented c) = true -> mem (lit_str "priors") (documented c) = true ->
        base_init (S:=S) (V:=V) (W:=W) own a kept = Ok (OIterative (AObj a (prior_given params (default_priors a)) (iterator_given params (default_iterator a)) None))).
    { intros own a Ho Mi Mp. unfold base_init. assert (E : forallb (fun k => mem k (own ++ [lit_str "iterator"; lit_str "priors"])) (dkeys kept) = true) by (apply forallb_forall; intros k Hin; apply mem_In, Ho, Keys, Hin).
      rewrite E, (It None Mi), (Pr Mp). cbn [bind]. do 2 f_equal. unfold mk_obj, prior_given, iterator_given, dflt. f_equal.
      - destruct (dget params (lit_str "priors")) as [[| |]|]; reflexivity.
      - destruct (dget params (lit_str "iterator")) as [[| |]|]; reflexivity. }
    clear It Pr Ty Hk. apply client_classes in Hc. cbn [In] in Hc.
    repeat destruct Hc as [<-|Hc]; try contradiction; (eexists; split; [reflexivity|]); cbn [get_algorithm_object].
    - rewrite (Base [] AverageLog); [reflexivity|cbn; tauto|reflexivity|reflexivity].
    - rewrite Fl by (reflexivity || discriminate). cbn [bind]. rewrite (Base [lit_str "g"]); [|cbn; tauto|reflexivity|reflexivity]. unfold mk_investment, float_given, dflt. destruct (dget params (lit_str "g")) as [[| |]|]; reflexivity.
    - rewrite Fl by (reflexivity || discriminate). cbn [bind]. rewrite (Base [lit_str "g"]); [|cbn; tauto|reflexivity|reflexivity]. unfold mk_pooled, float_given, dflt. destruct (dget params (lit_str "g")) as [[| |]|]; reflexivity.
    - rewrite (Base [] Sums); [reflexivity|cbn; tauto|reflexivity|reflexivity].
    - rewrite (Base [] UnboundedSums); [reflexivity|cbn; tauto|reflexivity|reflexivity].
    - rewrite !Fl by (reflexivity || discriminate). cbn [bind]. rewrite Base; [|cbn; tauto|reflexivity|reflexivity]. unfold mk_truthfinder, float_given, dflt.
      destruct (dget params (lit_str "influence_param")) as [[| |]|], (dget params (lit_str "dampening_factor")) as [[| |]|], (dget params (lit_str "initial_trust")) as [[| |]|]; reflexivity.
    - rewrite Fl by (reflexivity || discriminate). cbn [bind]. rewrite (Base [lit_str "eps"]); [|cbn; tauto|reflexivity|reflexivity]. unfold mk_crh, float_given, dflt. destruct (dget params (lit_str "eps")) as [[| |]|]; reflexivity.
    - destruct kept as [|p kept]; [reflexivity|]. exfalso. apply (Keys (fst p)). now left.
  Qed.
End Parameters.

(** * Non-vacuity, and surprises: a threshold in exponent notation with a negative exponent is refused, a trailing newline is accepted *)
Module ClientExamples.
  Definition ascii_decimal (c : pychar) : option N := if ((48 <=? c) && (c <=? 57))%N then Some (c - 48)%N else None.
  Example ascii_ok : decimal_ok ascii_decimal.
  Proof. intros c _. reflexivity. Qed.
  Definition pf (s : pystr) : option XR := if mem (strip s) [lit_str "0.1"; lit_str "1e-5"] then Some PInf else None.
  Example fixed : get_iterator pf ascii_decimal 200 (lit_str "fixed-20") = Ok (IFixed 20 0).
  Proof. reflexivity. Qed.
  Example fixed_newline : get_iterator pf ascii_decimal 200 (lit_str "fixed-200" ++ [newline]) = Ok (IFixed 200 0).
  Proof. reflexivity. Qed.
  Example too_many : get_iterator pf ascii_decimal 200 (lit_str "fixed-201") = Err TooManyIterations.
  Proof. reflexivity. Qed.
  Example conv : get_iterator pf ascii_decimal 200 (lit_str "cosine-convergence-0.1-limit-050") = Ok (IConv COSINE PInf 50 0 None).
  Proof. reflexivity. Qed.
  Example conv_default : get_iterator pf ascii_decimal 200 (lit_str "l_inf-convergence-0.1") = Ok (IConv L_INF PInf 200 0 None).
  Proof. reflexivity. Qed.
  Example exponent : get_iterator pf ascii_decimal 200 (lit_str "l1-convergence-1e-5") = Err BadIteratorSpec.
  Proof. reflexivity. Qed.
  Example param : algorithm_parameter pf ascii_decimal (lit_str " iterator = fixed-7 ") = Ok (lit_str "iterator", PIterator (IFixed 7 0)).
  Proof. reflexivity. Qed.
  Definition ps : dict pystr (pvalue XR) := [(lit_str "g", PFloat (Fin 1%R)); (lit_str "eps", PFloat (Fin 0%R)); (lit_str "iterator", PIterator (IFixed 7 0))].
  Example ps_typed : well_typed ps.
  Proof.
    intros k v. unfold ps. cbn [dget]. repeat match goal with |- context [if beq k ?l then _ else _] => destruct (beq_spec k l) as [->|] end; try discriminate; intros [= <-]; cbn; try reflexivity; split; discriminate.
  Qed.
  Example investment : get_algorithm_object (S:=nat) (V:=nat) (W:=nat) CInvestment (fst (get_algorithm_params (fun l => l) CInvestment ps)) = Ok (OIterative (AObj (Investment (Fin 1%R)) VOTED (IFixed 7 0) None)) /\
    snd (get_algorithm_params (fun l => l) CInvestment ps) = [lit_str "eps"].
  Proof. split; reflexivity. Qed.
End ClientExamples.
