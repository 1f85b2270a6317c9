(** Generic analysis of the loop shared by the iterative algorithms: which round it stops at is decided by the iterator
    and the compared vectors alone; the scores, the log and the count follow. *)
From Verif Require Import Base Num Sparse Spec Dataset Iterators Algorithms.

(** ** A loop driven by an iterator: compare the k-th pair of vectors until finished (or until [brk k]). *)
Section ItLoop.
  Context {F : Num}.
  Variable a b : nat -> vec F.
  Variable brk : nat -> bool.
  (* outcome, number of completed rounds, final iterator *)
  Fixpoint it_loop (fuel : nat) (it : iterator F) (k : nat) : (res aerr unit * nat) * iterator F :=
    match fuel with
    | O => ((Err OutOfFuel, k), it)
    | S n =>
        match finished it with
        | Err e => ((Err e, k), it)
        | Ok true => ((Ok tt, k), it)
        | Ok false =>
            if brk k then ((Ok tt, k), it)
            else match compare it (a k) (b k) with
                 | (Err e, it') => ((Err e, k), it')
                 | (Ok tt, it') => it_loop n it' (S k)
                 end
        end
    end.

  (** the lines printed on the way *)
  Fixpoint it_trace (fuel : nat) (it : iterator F) (k : nat) : list (nat * F) :=
    match fuel with
    | O => []
    | S n =>
        match finished it with
        | Ok false =>
            if brk k then []
            else match compare it (a k) (b k) with
                 | (Err e, it') => []
                 | (Ok tt, it') => debug_line it' ++ it_trace n it' (S k)
                 end
        | _ => []
        end
    end.

  Lemma compare_count (it : iterator F) (u v : vec F) : it_count (snd (compare it u v)) = S (it_count it).
  Proof.
    destruct it; cbn; [reflexivity| |].
    - destruct (get_distance m u v); reflexivity.
    - destruct (get_ranking_vector u), (get_ranking_vector v); reflexivity.
  Qed.
  Lemma compare_reset (it : iterator F) (u v : vec F) : reset (snd (compare it u v)) = reset it.
  Proof.
    destruct it; cbn; [reflexivity| |].
    - destruct (get_distance m u v); reflexivity.
    - destruct (get_ranking_vector u), (get_ranking_vector v); reflexivity.
  Qed.
  Lemma it_loop_reset fuel it k : reset (snd (it_loop fuel it k)) = reset it.
  Proof.
    revert it k. induction fuel as [|n IH]; intros it k; cbn; [reflexivity|].
    destruct (finished it) as [[|]|]; cbn; try reflexivity. destruct (brk k); [reflexivity|].
    destruct (compare it (a k) (b k)) as [[[]|e] it'] eqn:E.
    - rewrite IH. rewrite <- (compare_reset it (a k) (b k)), E. reflexivity.
    - cbn. rewrite <- (compare_reset it (a k) (b k)), E. reflexivity.
  Qed.
  Lemma it_loop_count fuel it k : it_count it = k -> fst (fst (it_loop fuel it k)) = Ok tt ->
    it_count (snd (it_loop fuel it k)) = snd (fst (it_loop fuel it k)).
  Proof.
    revert it k. induction fuel as [|n IH]; intros it k Hk; cbn; [discriminate|].
    destruct (finished it) as [[|]|]; cbn; try discriminate; auto. destruct (brk k); [auto|].
    pose proof (compare_count it (a k) (b k)) as C. destruct (compare it (a k) (b k)) as [[[]|e] it']; cbn in *; [|discriminate].
    apply IH. congruence.
  Qed.
  (* more fuel does not change an outcome other than OutOfFuel *)
  Lemma it_loop_fuel fuel m it k : fst (fst (it_loop fuel it k)) <> Err OutOfFuel -> fuel <= m ->
    it_loop m it k = it_loop fuel it k.
  Proof.
    revert m it k. induction fuel as [|n IH]; intros m it k H Hm; [cbn in H; congruence|].
    destruct m as [|m]; [lia|]. cbn in *. destruct (finished it) as [[|]|]; try reflexivity.
    destruct (brk k); [reflexivity|]. destruct (compare it (a k) (b k)) as [[[]|e] it']; [|reflexivity].
    apply IH; [exact H|lia].
  Qed.

  (** Fixed number of rounds *)
  Lemma it_loop_fixed fuel l n k stop :
    k <= stop -> (forall j, k <= j < stop -> brk j = false /\ (Z.of_nat (n + (j - k)) < l)%Z) ->
    (brk stop = true \/ (l <= Z.of_nat (n + (stop - k)))%Z) -> stop - k < fuel ->
    it_loop fuel (IFixed l n) k = ((Ok tt, stop), IFixed l (n + (stop - k))).
  Proof.
    revert n k. induction fuel as [|f IH]; intros n k Hle Hlt Hstop Hf; [lia|].
    cbn [it_loop finished]. destruct (Nat.eq_dec k stop) as [->|Hne].
    - rewrite Nat.sub_diag, Nat.add_0_r in *. destruct (Z.leb_spec l (Z.of_nat n)); [reflexivity|].
      destruct Hstop as [Hst|Hst]; [now rewrite Hst|lia].
    - destruct (Hlt k ltac:(lia)) as [Hb Hz]. rewrite Nat.sub_diag, Nat.add_0_r in Hz.
      destruct (Z.leb_spec l (Z.of_nat n)); [lia|]. rewrite Hb. cbn [compare].
      rewrite IH.
      + do 2 f_equal. lia.
      + lia.
      + intros j Hj. destruct (Hlt j ltac:(lia)) as [H1 H2]. split; [exact H1|]. replace (S n + (j - S k)) with (n + (j - k)) by lia. exact H2.
      + replace (S n + (stop - S k)) with (n + (stop - k)) by lia. exact Hstop.
      + lia.
  Qed.

  (** Iteration until convergence.  [dist j] is the distance of the j-th comparison. *)
  Lemma it_loop_conv_stop m thr lim fuel stop (dist : nat -> F) :
    (forall j, get_distance m (a j) (b j) = Ok (dist j)) -> (forall j, brk j = false) ->
    (Z.of_nat stop < lim)%Z -> (forall j, j < stop -> n_ltb (dist j) thr = false) -> n_ltb (dist stop) thr = true ->
    stop + 1 < fuel ->
    it_loop fuel (IConv m thr lim 0 None) 0 = ((Ok tt, S stop), IConv m thr lim (S stop) (Some (dist stop))).
  Proof.
    intros Hd Hb Hlim Hno Hyes.
    assert (G : forall fuel k cur, k <= stop -> stop - k + 1 < fuel ->
       (match cur with Some x => n_ltb x thr = false | None => True end) ->
       it_loop fuel (IConv m thr lim k cur) k = ((Ok tt, S stop), IConv m thr lim (S stop) (Some (dist stop)))).
    { clear fuel. induction fuel as [|f IH]; intros k cur Hk Hf Hcur; [lia|]. cbn [it_loop finished].
      assert (C : match cur with Some x => n_ltb x thr | None => false end = false) by (destruct cur; auto).
      rewrite C. destruct (Z.leb_spec lim (Z.of_nat k)); [lia|]. rewrite Hb. cbn [compare]. rewrite Hd.
      destruct (Nat.eq_dec k stop) as [->|Hne].
      - destruct f as [|f]; [lia|]. cbn [it_loop finished]. now rewrite Hyes.
      - apply IH; [lia|lia|]. apply Hno. lia. }
    intros Hf. apply G; [lia|lia|exact I].
  Qed.
  Lemma it_loop_conv_fail m thr lim fuel (dist : nat -> F) :
    (forall j, get_distance m (a j) (b j) = Ok (dist j)) -> (forall j, brk j = false) ->
    (forall j, (Z.of_nat j < lim)%Z -> n_ltb (dist j) thr = false) ->
    Z.to_nat lim < fuel ->
    fst (it_loop fuel (IConv m thr lim 0 None) 0) = (Err ConvergenceError, Z.to_nat lim).
  Proof.
    intros Hd Hb Hno.
    assert (G : forall fuel k cur, (Z.of_nat k <= Z.max 0 lim)%Z -> Z.to_nat lim - k < fuel ->
       (match cur with Some x => n_ltb x thr = false | None => True end) ->
       fst (it_loop fuel (IConv m thr lim k cur) k) = (Err ConvergenceError, Z.to_nat lim)).
    { clear fuel. induction fuel as [|f IH]; intros k cur Hk Hf Hcur; [lia|]. cbn [it_loop finished].
      assert (C : match cur with Some x => n_ltb x thr | None => false end = false) by (destruct cur; auto).
      rewrite C. destruct (Z.leb_spec lim (Z.of_nat k)).
      - cbn. f_equal. lia.
      - rewrite Hb. cbn [compare]. rewrite Hd. apply IH; [lia|lia|]. apply Hno. lia. }
    intros Hf. apply G; [lia|lia|exact I].
  Qed.
  (* a convergence loop never makes more than [lim] comparisons, and terminates *)
  Lemma it_loop_conv_bound m thr lim fuel k cur : (Z.of_nat k <= Z.max 0 lim)%Z -> Z.to_nat lim - k < fuel ->
    let '((r, n), it') := it_loop fuel (IConv m thr lim k cur) k in
    r <> Err OutOfFuel /\ (Z.of_nat n <= Z.max 0 lim)%Z.
  Proof.
    revert k cur. induction fuel as [|f IH]; intros k cur Hk Hf; [lia|]. cbn [it_loop finished].
    destruct (match cur with Some x => n_ltb x thr | None => false end); [split; [discriminate|exact Hk]|].
    destruct (Z.leb_spec lim (Z.of_nat k)); [split; [discriminate|exact Hk]|].
    destruct (brk k); [split; [discriminate|exact Hk]|]. cbn [compare].
    destruct (get_distance m (a k) (b k)) as [x|e] eqn:E.
    - apply IH; lia.
    - split; [|exact Hk]. intros Q. injection Q as ->. unfold get_distance in E. destruct m; try discriminate.
      + destruct (norm_inf _); discriminate.
      + destruct (_ || _)%bool; discriminate.
  Qed.
End ItLoop.

Section Driver.
  Context {S V W : Type} {ES : Eqb S} {EV : Eqb V} {EW : Eqb W} {F : Num}.
  Notation data := (dataset S V W F).
  Variable clock : nat -> F.
  Notation M := (M S V W F).
  Notation mst := (mst S V W F).
  Notation "x <~ m ;;; k" := (mbind m (fun x => k)) (at level 61, m at next level, right associativity).

  (** One round as a pure function of (trust, belief): stop, fail, or compare two vectors and go on. *)
  Inductive uout := UBreak | UFail (e : aerr) | UNext (u v : vec F) (x : vec F * vec F).
  Definition std_body (d : data) (upd : vec F * vec F -> uout) (x : vec F * vec F) : M ((vec F * vec F) * bool) :=
    match upd x with
    | UBreak => ret (x, true)
    | UFail e => fail e
    | UNext u v x' =>
        _ <~ compareM u v ;;; _ <~ log clock d (fst x') (snd x') ;;; ret (x', false)
    end.

  Definition sums_upd (d : data) (x : vec F * vec F) : uout :=
    let (trust, belief) := x in
    let nt := mv (sc d) belief in
    let nb := mv (mtr (sc d)) nt in
    match pymax nt, pymax nb with
    | Some m, Some m' => UNext trust (vdivs nt m) (vdivs nt m, vdivs nb m')
    | _, _ => UFail EmptySequence
    end.
  Definition avlog_upd (d : data) (x : vec F * vec F) : uout :=
    let (trust, belief) := x in
    let nt := vmul (avlog_weights d) (mv (sc d) belief) in
    let nb := mv (mtr (sc d)) nt in
    match pymax nt, pymax nb with
    | Some m, Some m' => UNext (vdivs nt m) trust (vdivs nt m, vdivs nb m')
    | _, _ => UFail EmptySequence
    end.
  Definition inv_upd (g : F) (d : data) (x : vec F * vec F) : uout :=
    let (trust, belief) := x in
    match update_trust trust (claim_counts d) (sc d) belief with
    | None => UBreak
    | Some nt =>
        let nb := map (fun y => n_pow y g) (mv (mtr (sc d)) (vdiv nt (claim_counts d))) in
        match pymax nt, pymax nb with
        | Some m, Some m' => UNext (vdivs nt m) trust (vdivs nt m, vdivs nb m')
        | _, _ => UFail EmptySequence
        end
    end.
  Definition pooled_upd (g : F) (d : data) (x : vec F * vec F) : uout :=
    let (trust, belief) := x in
    match update_trust trust (claim_counts d) (sc d) belief with
    | None => UBreak
    | Some nt =>
        let base := mv (mtr (sc d)) (vdiv nt (claim_counts d)) in
        let rets := map (fun y => n_pow y g) base in
        let nb := vmul base (vdiv rets (mv (mut_ex d) rets)) in
        match pymax nt, pymax nb with
        | Some m, Some m' => UNext (vdivs nt m) trust (vdivs nt m, vdivs nb m')
        | _, _ => UFail EmptySequence
        end
    end.
  Definition tf_upd (rho gamma : F) (d : data) (x : vec F * vec F) : uout :=
    let (trust, belief) := x in
    match get_log_trust trust with
    | None => UBreak
    | Some tau =>
        let lb := mv (tf_b_mat rho d) tau in
        let nb := map (fun y => n_div (n_ofZ 1) (n_add (n_ofZ 1) (n_exp (n_mul (n_opp gamma) y)))) lb in
        let nt := mv (tf_a_mat d) nb in
        UNext nt trust (nt, nb)
    end.
  Definition crh_upd (eps : F) (d : data) (x : vec F * vec F) : uout :=
    let (trust, belief) := x in
    let alpha := map (fun s => n_add eps (crh_loss d belief s)) (seq 0 (num_sources d)) in
    let nt := map (fun u => n_sub eps (n_ln (n_div u (vsum alpha)))) alpha in
    let nb := vdivs (mv (mtr (sc d)) nt) (vsum nt) in
    UNext trust nt (nt, nb).
  Definition rescale1 (v : vec F) : option (vec F) :=
    match npmax v with
    | Some m => Some (if n_ltb (n_ofZ 1000) m then vdivs v (n_ofZ 1000) else v)
    | None => None
    end.
  Definition usums_upd (d : data) (x : vec F * vec F) : uout :=
    let (trust, belief) := x in
    let nt := mv (sc d) belief in
    let nb := mv (mtr (sc d)) nt in
    match rescale1 nt, rescale1 nb with
    | Some t', Some b' => UNext trust nt (t', b')
    | _, _ => UFail EmptySequence
    end.

  Ltac body_eq := unfold std_body, mbind, normalise, compareM, ret, fail; cbn;
    repeat match goal with |- context [match pymax ?v with _ => _ end] => destruct (pymax v); cbn end; reflexivity.
  Lemma sums_body_std d x st : sums_body clock d x st = std_body d (sums_upd d) x st.
  Proof. destruct x as [t b]. unfold sums_body, sums_upd. body_eq. Qed.
  Lemma avlog_body_std d x st : avlog_body clock d x st = std_body d (avlog_upd d) x st.
  Proof. destruct x as [t b]. unfold avlog_body, avlog_upd. body_eq. Qed.
  Lemma inv_body_std g d x st : inv_body clock g d x st = std_body d (inv_upd g d) x st.
  Proof.
    destruct x as [t b]. unfold inv_body, inv_upd, std_body. cbn.
    destruct (update_trust t (claim_counts d) (sc d) b); [|reflexivity]. body_eq.
  Qed.
  Lemma pooled_body_std g d x st : pooled_body clock g d x st = std_body d (pooled_upd g d) x st.
  Proof.
    destruct x as [t b]. unfold pooled_body, pooled_upd, std_body. cbn.
    destruct (update_trust t (claim_counts d) (sc d) b); [|reflexivity]. body_eq.
  Qed.
  Lemma tf_body_std rho gamma d x st : tf_body clock rho gamma d x st = std_body d (tf_upd rho gamma d) x st.
  Proof.
    destruct x as [t b]. unfold tf_body, tf_upd, std_body. cbn. destruct (get_log_trust t); [|reflexivity]. body_eq.
  Qed.
  Lemma crh_body_std eps d x st : crh_body clock eps d x st = std_body d (crh_upd eps d) x st.
  Proof. destruct x as [t b]. unfold crh_body, crh_upd. body_eq. Qed.
  Lemma npmax_nonempty (v : vec F) : v <> [] -> exists m, npmax v = Some m.
  Proof. destruct v; [congruence|]. intros _. cbn. eauto. Qed.
  Lemma mv_nonempty (A : mat F) x : m_rows A <> 0 -> mv A x <> [].
  Proof. unfold mv. destruct (m_rows A); [congruence|]. discriminate. Qed.
  Lemma usums_body_std d x st : m_rows (sc d) <> 0 -> m_cols (sc d) <> 0 ->
    usums_body clock d x st = std_body d (usums_upd d) x st.
  Proof.
    intros Hr Hc. destruct x as [t b]. unfold usums_body, usums_upd, std_body, rescale, rescale1.
    destruct (npmax_nonempty (mv (sc d) b)) as [m1 E1]; [now apply mv_nonempty|].
    destruct (npmax_nonempty (mv (mtr (sc d)) (mv (sc d) b))) as [m2 E2]; [now apply mv_nonempty|].
    rewrite E1, E2. unfold mbind, compareM, ret. cbn.
    destruct (compare (st_it st) t (mv (sc d) b)) as [[[]|e] it']; reflexivity.
  Qed.

  Lemma while_ext {X} fuel (body body' : X -> M (X * bool)) x st :
    (forall x st, body x st = body' x st) -> while_ fuel body x st = while_ fuel body' x st.
  Proof.
    intros H. revert x st. induction fuel as [|n IH]; intros x st; cbn; [reflexivity|].
    unfold mbind, finishedM. destruct (finished (st_it st)) as [[|]|]; try reflexivity.
    rewrite H. destruct (body' x st) as [[[x' brk]|e] st']; [|reflexivity]. destruct brk; [reflexivity|apply IH].
  Qed.

  (** The partial result logged for scores [td]/[bd] at round [k], as the [n]-th log entry. *)
  Definition entry (td : nat -> dict S F) (bd : nat -> dict V (dict W F)) (n k : nat) : result S V W F :=
    Result (td k) (bd k) (n_sub (clock n) (clock 0)) (Some k).

  Variable d : data.
  Variable upd : vec F * vec F -> uout.
  Variable xs : nat -> vec F * vec F.
  Variables a b : nat -> vec F.
  Variable brk : nat -> bool.
  Variable td : nat -> dict S F.
  Variable bd : nat -> dict V (dict W F).
  Hypothesis Hupd : forall k, upd (xs k) = if brk k then UBreak else UNext (a k) (b k) (xs (Datatypes.S k)).
  Hypothesis Htd : forall k, get_source_trust_dict d (fst (xs k)) = Some (td k).
  Hypothesis Hbd : forall k, get_belief_dict d (snd (xs k)) = Some (bd k).

  Definition logged (l : list (result S V W F)) (k k' : nat) : list (result S V W F) :=
    l ++ map (fun j => entry td bd (length l + (j - k)) j) (seq (Datatypes.S k) (k' - k)).

  Lemma logged_step l k k' : k < k' ->
    logged (l ++ [entry td bd (Datatypes.S (length l)) (Datatypes.S k)]) (Datatypes.S k) k' = logged l k k'.
  Proof.
    intros H. unfold logged. rewrite <- app_assoc. f_equal. rewrite app_length. cbn [length].
    replace (k' - k) with (Datatypes.S (k' - Datatypes.S k)) by lia. cbn [seq map app]. f_equal.
    - f_equal. lia.
    - apply map_ext_in. intros j Hj. apply in_seq in Hj. f_equal. lia.
  Qed.
  Lemma logged_same l k : logged l k k = l.
  Proof. unfold logged. rewrite Nat.sub_diag. cbn. apply app_nil_r. Qed.

  Lemma it_loop_ge fuel it k : k <= snd (fst (it_loop a b brk fuel it k)).
  Proof.
    revert it k. induction fuel as [|n IH]; intros it k; cbn; [lia|].
    destruct (finished it) as [[|]|]; cbn; try lia. destruct (brk k); [cbn; lia|].
    destruct (compare it (a k) (b k)) as [[[]|e] it']; [|cbn; lia]. etransitivity; [|apply IH]. lia.
  Qed.

  Theorem while_it_loop fuel k it lg out : it_count it = k ->
    while_ fuel (std_body d upd) (xs k) (MState it lg out) =
    let '((r, k'), it') := it_loop a b brk fuel it k in
    (match r with Ok _ => Ok (xs k') | Err e => Err e end, MState it' (option_map (fun l => logged l k k') lg) (out ++ it_trace a b brk fuel it k)).
  Proof.
    revert k it lg out. induction fuel as [|n IH]; intros k it lg out Hk.
    - cbn. rewrite app_nil_r. destruct lg; cbn; rewrite ?logged_same; reflexivity.
    - cbn [while_ it_loop it_trace]. unfold mbind at 1, finishedM. cbn [st_it].
      assert (L0 : option_map (fun l => logged l k k) lg = lg) by (destruct lg; cbn; rewrite ?logged_same; reflexivity).
      destruct (finished it) as [[|]|e]; cbn [ret]; [rewrite L0, app_nil_r; reflexivity| |rewrite L0, app_nil_r; reflexivity].
      unfold mbind at 1. unfold std_body at 1. rewrite Hupd. destruct (brk k); [rewrite L0, app_nil_r; reflexivity|].
      unfold mbind at 1, compareM at 1. cbn [st_it st_log st_out].
      pose proof (compare_count it (a k) (b k)) as C.
      destruct (compare it (a k) (b k)) as [[[]|e] it'] eqn:Ec; [|rewrite L0; reflexivity]. cbn in C.
      unfold mbind at 1. unfold log at 1. cbn [st_it st_log st_out].
      assert (IH' : forall lg', while_ n (std_body d upd) (xs (Datatypes.S k)) (MState it' lg' (out ++ debug_line it')) =
         let '((r, k'), it'') := it_loop a b brk n it' (Datatypes.S k) in
         (match r with Ok _ => Ok (xs k') | Err e => Err e end, MState it'' (option_map (fun l => logged l (Datatypes.S k) k') lg') (out ++ debug_line it' ++ it_trace a b brk n it' (Datatypes.S k)))).
      { intros lg'. rewrite app_assoc. apply IH. congruence. }
      destruct lg as [l|].
      + rewrite Htd, Hbd. cbn [ret]. rewrite IH'.
        pose proof (it_loop_ge n it' (Datatypes.S k)) as Ge.
        destruct (it_loop a b brk n it' (Datatypes.S k)) as [[r k'] it'']. cbn in Ge. cbn [option_map].
        rewrite <- (logged_step l k k') by lia. rewrite C, Hk. reflexivity.
      + cbn [ret]. rewrite IH'. destruct (it_loop a b brk n it' (Datatypes.S k)) as [[r k'] it'']. reflexivity.
  Qed.
End Driver.
Arguments uout : clear implicits.
