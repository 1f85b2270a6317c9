(** C105: animators: the constructor, generators of frames sharing a renderer, what is written, and the colours left behind. *)
From Coq Require Import NArith String.
From Verif Require Import Base Num Sparse Spec Dataset DatasetProofs DatasetRep Iterators Algorithms Driver Rounds Results PyStr Client Graph GraphRep Animator PropsRun PropsGraph PropsColour.
Local Open Scope nat_scope.

(** The class whose instances an animator accepts as a renderer's backend *)
Definition drawn_by (k : kind) : pystr := match k with Gif => lit_str "PngBackend" | Json => lit_str "JsonBackend" end.
(** The constructor succeeds exactly if the frame duration is not 0 and the backend is an instance of that class, or of a subclass; without a renderer a fresh one with that backend is used. *)
Theorem C105_constructor {F : Num} (k : kind) renderer (t : F) :
  match new_animator k renderer t with
  | Ok (b, fps) => n_eqb t (n_ofZ 0) = false /\ In (drawn_by k) b /\ fps = n_div (n_ofZ 1) t /\ match renderer with Some b' => b = b' | None => b = [drawn_by k; lit_str "BaseBackend"; lit_str "object"] end
  | Err AZeroDivision => n_eqb t (n_ofZ 0) = true
  | Err ATypeError => n_eqb t (n_ofZ 0) = false /\ exists b, renderer = Some b /\ ~ In (drawn_by k) b
  end.
Proof.
  assert (K : supported k = drawn_by k) by now destruct k. unfold new_animator. rewrite K. destruct (n_eqb t (n_ofZ 0)) eqn:Z; [reflexivity|]. set (b := match renderer with Some b => b | None => default_backend k end).
  destruct (existsb (beq (drawn_by k)) b) eqn:E.
  - split; [reflexivity|]. apply existsb_exists in E. destruct E as (x & Hx & E). apply (proj1 (beq_true _ _)) in E. subst x. split; [exact Hx|]. split; [reflexivity|]. unfold b. destruct renderer; [reflexivity|]. now destruct k.
  - split; [reflexivity|]. destruct renderer as [b'|].
    + exists b'. split; [reflexivity|]. intros H. assert (Q : existsb (beq (drawn_by k)) b = true) by (apply existsb_exists; exists (drawn_by k); split; [exact H|apply beq_refl]). congruence.
    + exfalso. destruct k; vm_compute in E; discriminate.
Qed.

Section C105.
  Context {S V W LS LV : Type} {ES : Eqb S} {EV : Eqb V} {EW : Eqb W} {EL : Eqb LV} {F : Num} {FOK : NumOK F}.
  Variable src_tuple : S -> option (option (V * W)).
  Variable T : trig F.
  Variable sz : sizes.
  Variable nm : naming S V W LS LV.
  Notation data := (dataset S V W F).
  Notation result := (result S V W F).
  Notation aobj := (aobj S V W F).
  Notation stage := (stage S V W F).
  Notation events := (events src_tuple T sz nm).
  Notation frame := (frame src_tuple T sz nm).

  (** What frame i of n is: the drawing of result r by a fresh renderer, or an exception *)
  Definition frame_or_error (d : data) (show : bool) (n : nat) (i : nat) (r : result) : res gerr (drawing F) :=
    if show && Nat.eqb n 1 then Err GZeroDivision else frame d r (progress_at show n i).
  (** frames up to the first exception *)
  Fixpoint until_error (l : list (res gerr (drawing F))) : list (event F) :=
    match l with
    | [] => []
    | Ok f :: rest => Frame f :: until_error rest
    | Err e :: _ => [Raised e]
    end.
  (** everything a generator gives if it is the only thing the program does *)
  Definition alone (clock : nat -> F) (fuel : nat) (o : aobj) (d : data) (show : bool) : list (event F) :=
    match fst (run_iter clock fuel o d) with
    | Err e => [Raised (GAlgorithm e)]
    | Ok l => until_error (map (fun p => frame_or_error d show (length l) (fst p) (snd p)) (enumerate l))
    end.
  (** how often generator g is advanced *)
  Definition advanced (g : nat) (acts : list (act S V W F)) : nat := length (filter (fun o => match o with Next g' => Nat.eqb g' g | _ => false end) acts).
  (** the datasets used are datasets *)
  Definition act_real (o : act S V W F) : Prop := match o with Run _ _ _ d => real d | _ => True end.

  (** generators that get_frames can have made *)
  Definition gen_real (gen : generator S V W F) : Prop :=
    match gen with Pending _ _ _ d _ => real d | Going _ _ n _ => exists m, n = (Z.of_nat m - 1)%Z | Over => True end.

  (* invariant: generator gen still has the events E to give *)
  Definition owes (objs : nat -> aobj) (gen : generator S V W F) (E : list (event F)) : Prop :=
    match gen with
    | Over => E = []
    | Going d show n rest => exists m, n = (Z.of_nat m - 1)%Z /\ E = until_error (map (fun p => frame_or_error d show m (fst p) (snd p)) rest)
    | Pending clock fuel i d show => real d /\ E = alone clock fuel (objs i) d show
    end.
  Definition same (o o' : aobj) : Prop := o_alg o = o_alg o' /\ o_priors o = o_priors o' /\ reset (o_it o) = reset (o_it o').
  Lemma same_iter o o' clock fuel d : real d -> same o o' -> fst (run_iter clock fuel o d) = fst (run_iter clock fuel o' d) /\
    same (snd (run_iter clock fuel o d)) o' /\ same (snd (run clock fuel o d)) o'.
  Proof.
    intros Hd (H1 & H2 & H3). destruct o as [a p it lg], o' as [a' p' it' lg']. cbn in H1, H2, H3. subst a' p'.
    destruct (run_reset d clock fuel a p it it' lg lg' Hd H3) as (_ & Q & (A1 & A2 & A3) & (B1 & B2 & B3)). split; [exact Q|]. unfold same. cbn [o_alg o_priors o_it]. split.
    - rewrite B1, B2, B3, H3. auto.
    - rewrite A1, A2, A3, H3. auto.
  Qed.
  Lemma alone_same o o' clock fuel d show : real d -> same o o' -> alone clock fuel o d show = alone clock fuel o' d show.
  Proof. intros Hd H. unfold alone. now rewrite (proj1 (same_iter o o' clock fuel d Hd H)). Qed.
  Lemma z_one m : Z.eqb (Z.of_nat m - 1) 0 = Nat.eqb m 1.
  Proof. destruct (Z.eqb_spec (Z.of_nat m - 1) 0), (Nat.eqb_spec m 1); lia || reflexivity. Qed.
  Lemma next_owes objs st d show m rest : let '(st', gen, ev) := next_frame src_tuple T sz nm st d show (Z.of_nat m - 1) rest in
    let E := until_error (map (fun p => frame_or_error d show m (fst p) (snd p)) rest) in
    match E with [] => ev = Stopped /\ owes objs gen [] | x :: E' => ev = x /\ owes objs gen E' end.
  Proof.
    destruct rest as [|[i r] rest]; cbn [next_frame map until_error]; [cbn; auto|]. cbn [fst snd]. unfold frame_or_error at 1. rewrite z_one.
    destruct (show && Nat.eqb m 1); [cbn; auto|]. cbv zeta. unfold progress_at at 1.
    match goal with |- context [render src_tuple T sz nm ?s d ?p] => pose proof (render_frame src_tuple T sz nm (rs_height st) d r p) as Q; cbn [rs_height] in *; destruct (render src_tuple T sz nm s d p) as [st' q] eqn:E end.
    cbn [snd] in Q. rewrite <- Q. destruct q as [f|e]; cbn [owes]; [|auto]. split; [reflexivity|]. exists m. auto.
  Qed.

  (** C105. Whatever else the program does in between - advancing other generators that use the same renderer and algorithm objects, drawing,
      assigning colours, running the algorithms - a generator gives the frames it would give alone, and then only StopIteration. *)
  Theorem C105_frames_do_not_interfere (w : stage) (g : nat) (acts : list (act S V W F)) clock fuel i d show :
    (forall j, gen_real (s_gens w j)) -> Forall act_real acts ->
    s_gens w g = Pending clock fuel i d show ->
    let all := alone clock fuel (s_objs w i) d show in
    events g w acts = firstn (advanced g acts) (all ++ repeat Stopped (advanced g acts)).
  Proof.
    intros Hg Ha Eg. cbv zeta. remember (s_objs w) as objs0 eqn:Eo0.
    assert (G : forall acts w E, Forall act_real acts -> (forall i, same (s_objs w i) (objs0 i)) ->
      (forall j, gen_real (s_gens w j)) ->
      owes objs0 (s_gens w g) E -> events g w acts = firstn (advanced g acts) (E ++ repeat Stopped (advanced g acts))).
    { clear acts w Hg Ha Eg Eo0. induction acts as [|o acts IH]; intros w E Ha Ho Hg HE; [reflexivity|]. inversion Ha as [|? ? Ho1 Ha']; subst.
      assert (Skip : forall w', (forall i, same (s_objs w' i) (objs0 i)) ->
        (forall j, gen_real (s_gens w' j)) ->
        owes objs0 (s_gens w' g) E -> events g w' acts = firstn (advanced g acts) (E ++ repeat Stopped (advanced g acts))) by (intros w' H1 H2 H3; now apply IH).
      destruct o as [g'|d0 p0|d0 p0|c|i0 clock0 fuel0 d0]; cbn [Animator.events do_act].
      2, 3, 4: apply Skip; cbn [s_objs s_gens]; auto.
      2: { apply Skip; cbn [s_objs s_gens]; auto. intros j. unfold set_at. destruct (Nat.eqb_spec j i0) as [->|]; [|apply Ho]. exact (proj2 (proj2 (same_iter _ _ clock0 fuel0 d0 Ho1 (Ho i0)))). }
      (* the state after advancing g' *)
      assert (St : exists w' ev, do_act src_tuple T sz nm w (Next g') = (w', Some ev) /\ (forall i, same (s_objs w' i) (objs0 i)) /\
        (forall j, gen_real (s_gens w' j)) /\
        (g' <> g -> s_gens w' g = s_gens w g) /\ (forall E, owes objs0 (s_gens w g') E -> match E with [] => ev = Stopped /\ owes objs0 (s_gens w' g') [] | x :: E' => ev = x /\ owes objs0 (s_gens w' g') E' end)).
      { cbn [do_act]. pose proof (Hg g') as Hg'. destruct (s_gens w g') as [clock1 fuel1 i1 d1 show1|d1 show1 n1 rest1|] eqn:Egen.
        - destruct (same_iter _ _ clock1 fuel1 d1 Hg' (Ho i1)) as (Q1 & Q2 & _). destruct (run_iter clock1 fuel1 (s_objs w i1) d1) as [q o'] eqn:Er. cbn [fst snd] in Q1, Q2.
          assert (Ho' : forall i, same (set_at (s_objs w) i1 o' i) (objs0 i)) by (intros j; unfold set_at; destruct (Nat.eqb_spec j i1) as [->|]; [exact Q2|apply Ho]).
          destruct q as [l|e].
          + pose proof (next_owes objs0 (s_rend w) d1 show1 (List.length l) (enumerate l)) as N. destruct (next_frame src_tuple T sz nm (s_rend w) d1 show1 (Z.of_nat (List.length l) - 1) (enumerate l)) as [[st' gen] ev] eqn:En.
            eexists. eexists. split; [reflexivity|]. cbn [s_objs s_gens]. split; [exact Ho'|]. split; [|split].
            * intros j. unfold set_at. destruct (Nat.eqb_spec j g') as [->|]; [|apply Hg]. cbv zeta in N. destruct gen as [? ? ? ? ?|? ? n2 ?|]; [| |exact I].
              -- destruct (until_error _); destruct N as [_ N]; exact (proj1 N).
              -- destruct (until_error _); destruct N as [_ (m & N & _)]; exists m; exact N.
            * intros Ng. unfold set_at. destruct (Nat.eqb_spec g g'); [congruence|reflexivity].
            * intros E1 (_ & ->). unfold set_at. rewrite Nat.eqb_refl. unfold alone. rewrite <- Q1. exact N.
          + eexists. eexists. split; [reflexivity|]. cbn [s_objs s_gens]. split; [exact Ho'|]. split; [|split].
            * intros j. unfold set_at. destruct (Nat.eqb_spec j g') as [->|]; [exact I|apply Hg].
            * intros Ng. unfold set_at. destruct (Nat.eqb_spec g g'); [congruence|reflexivity].
            * intros E1 (_ & ->). unfold set_at. rewrite Nat.eqb_refl. unfold alone. rewrite <- Q1. cbn. auto.
        - destruct Hg' as (m1 & ->). pose proof (next_owes objs0 (s_rend w) d1 show1 m1 rest1) as N. destruct (next_frame src_tuple T sz nm (s_rend w) d1 show1 (Z.of_nat m1 - 1) rest1) as [[st' gen] ev] eqn:En.
          eexists. eexists. split; [reflexivity|]. cbn [s_objs s_gens]. split; [exact Ho|]. split; [|split].
          + intros j. unfold set_at. destruct (Nat.eqb_spec j g') as [->|]; [|apply Hg]. cbv zeta in N. destruct gen as [? ? ? ? ?|? ? n2 ?|]; [| |exact I].
            * destruct (until_error _); destruct N as [_ N]; exact (proj1 N).
            * destruct (until_error _); destruct N as [_ (m & N & _)]; exists m; exact N.
          + intros Ng. unfold set_at. destruct (Nat.eqb_spec g g'); [congruence|reflexivity].
          + intros E1 (m2 & Em & ->). assert (m2 = m1) by lia. subst m2. unfold set_at. rewrite Nat.eqb_refl. exact N.
        - eexists. eexists. split; [reflexivity|]. split; [exact Ho|]. split; [exact Hg|]. split; [reflexivity|]. intros E1 H1. rewrite Egen. cbn in H1. subst E1. cbn. auto. }
      destruct St as (w' & ev & Ew & S1 & S2 & S3 & S4). cbn [do_act] in Ew. rewrite Ew. unfold advanced. cbn [filter]. destruct (Nat.eqb_spec g' g) as [->|Ng].
      - cbn [List.length]. fold (advanced g acts). specialize (S4 E HE). destruct E as [|x E'].
        + destruct S4 as [-> S4]. cbn [app repeat firstn]. f_equal. exact (IH w' [] Ha' S1 S2 S4).
        + destruct S4 as [-> S4]. cbn [app firstn]. f_equal. rewrite (IH w' E' Ha' S1 S2 S4). cbn [repeat]. rewrite repeat_cons, app_assoc.
          assert (L : advanced g acts <= List.length (E' ++ repeat Stopped (advanced g acts))) by (rewrite app_length, repeat_length; lia).
          rewrite (firstn_app (advanced g acts) (E' ++ repeat Stopped (advanced g acts))). replace (advanced g acts - List.length (E' ++ repeat Stopped (advanced g acts))) with 0 by lia. cbn [firstn]. now rewrite app_nil_r.
      - fold (advanced g acts). apply Skip; [exact S1|exact S2|]. now rewrite (S3 Ng). }
    apply G; [exact Ha| |exact Hg|].
    - intros j. rewrite Eo0. unfold same. auto.
    - rewrite Eg. cbn [owes]. split; [|reflexivity]. pose proof (Hg g) as Q. rewrite Eg in Q. exact Q.
  Qed.

  (** ** What is written *)
  Definition the_frames (l : list (event F)) : list (drawing F) := flat_map (fun e => match e with Frame f => [f] | _ => [] end) l.
  Definition the_exception (l : list (event F)) : option gerr := match filter (fun e => match e with Raised _ => true | _ => false end) l with Raised e :: _ => Some e | _ => None end.
  Lemma render_colours st d p : rs_colours (fst (render src_tuple T sz nm st d p)) = rs_colours st.
  Proof. reflexivity. Qed.
  Lemma drawn_char d show m : forall rest st, let '(st', fs, e) := drawn src_tuple T sz nm st d show (Z.of_nat m - 1) rest in
    let ev := until_error (map (fun p => frame_or_error d show m (fst p) (snd p)) rest) in
    fs = the_frames ev /\ e = the_exception ev /\ (e = None -> List.length fs = List.length rest) /\ (e <> None -> List.length fs < List.length rest) /\
    rs_colours st' = match nth_error rest (Nat.min (List.length fs) (List.length rest - 1)) with Some (_, r) => GradientScheme r | None => rs_colours st end.
  Proof.
    induction rest as [|[i r] rest IH]; intros st; [cbn; repeat split; congruence|]. cbn [drawn]. pose proof (next_owes (fun _ => AObj Sums FIXED (IFixed 0 0) None) st d show m [(i, r)]) as N.
    assert (C : rs_colours (fst (fst (next_frame src_tuple T sz nm st d show (Z.of_nat m - 1) [(i, r)]))) = GradientScheme r).
    { cbn [next_frame]. destruct (show && Z.eqb (Z.of_nat m - 1) 0); [reflexivity|]. cbv zeta.
      match goal with |- context [render src_tuple T sz nm ?s d ?p] => pose proof (render_colours s d p) as Q; destruct (render src_tuple T sz nm s d p) as [st1 q] end. destruct q; exact Q. }
    destruct (next_frame src_tuple T sz nm st d show (Z.of_nat m - 1) [(i, r)]) as [[st' gen] ev] eqn:En. cbn [fst] in C. cbv zeta in N. cbn [map until_error fst snd] in N |- *.
    destruct (frame_or_error d show m i r) as [f|e]; cbn [until_error] in N |- *.
    - destruct N as [-> _]. specialize (IH st'). destruct (drawn src_tuple T sz nm st' d show (Z.of_nat m - 1) rest) as [[st'' fs] e]. cbv zeta in IH. destruct IH as (E1 & E2 & E3 & E4 & E5).
      split; [cbn; f_equal; exact E1|]. split; [exact E2|]. cbn [List.length]. split; [intros H; f_equal; now apply E3|]. split; [intros H; specialize (E4 H); lia|].
      rewrite E5. destruct rest as [|p rest].
      + cbn [List.length] in *. rewrite Nat.min_0_r. replace (Nat.min (Datatypes.S (List.length fs)) (1 - 1)) with 0 by lia. cbn [nth_error]. destruct (Nat.min _ _); exact C.
      + cbn [List.length] in *. replace (Nat.min (Datatypes.S (List.length fs)) (Datatypes.S (Datatypes.S (List.length rest)) - 1)) with (Datatypes.S (Nat.min (List.length fs) (Datatypes.S (List.length rest) - 1))) by lia.
        cbn [nth_error]. destruct (nth_error (p :: rest) (Nat.min (List.length fs) (Datatypes.S (List.length rest) - 1))) as [[? ?]|] eqn:Q; [reflexivity|].
        exfalso. apply nth_error_None in Q. cbn [List.length] in Q. lia.
    - destruct N as [-> _]. cbn. split; [reflexivity|]. split; [reflexivity|]. split; [discriminate|]. split; [lia|exact C].
  Qed.

  (** C105. animate writes what the generator alone gives: a GIF gets every frame that comes before the exception; a JSON file gets one object
      with the frames and the frame rate, or, after an exception, nothing at all; the exception is the caller's. *)
  Theorem C105_animate k fps clock fuel st o d show : let '(_, out, end_) := animate src_tuple T sz nm k fps clock fuel st o d show in
    let all := alone clock fuel o d show in
    end_ = match the_exception all with None => Ok tt | Some e => Err e end /\
    out = match k with
          | Gif => GifFrames (the_frames all)
          | Json => match the_exception all with None => JsonObject fps (the_frames all) | Some _ => NothingWritten end
          end.
  Proof.
    unfold animate, alone. destruct (fst (run_iter clock fuel o d)) as [l|e]; [|destruct k; cbn; auto].
    pose proof (drawn_char d show (List.length l) (enumerate l) st) as Q. destruct (drawn src_tuple T sz nm st d show (Z.of_nat (List.length l) - 1) (enumerate l)) as [[st' fs] e].
    cbv zeta in Q. destruct Q as (E1 & E2 & _). cbv zeta. rewrite <- E2, <- E1. split; [reflexivity|]. destruct k; reflexivity.
  Qed.
  (** The renderer keeps the gradient colours of the last partial result it drew, or failed to draw: drawing with it afterwards does not use the colours it had. *)
  Theorem C105_colours_left k fps clock fuel st o d show : let '(st', _, _) := animate src_tuple T sz nm k fps clock fuel st o d show in
    rs_colours st' = match fst (run_iter clock fuel o d) with
                     | Err _ => rs_colours st
                     | Ok l => match nth_error l (Nat.min (List.length (the_frames (alone clock fuel o d show))) (List.length l - 1)) with
                               | Some r => GradientScheme r
                               | None => rs_colours st
                               end
                     end.
  Proof.
    unfold animate, alone. destruct (fst (run_iter clock fuel o d)) as [l|e]; [|reflexivity].
    pose proof (drawn_char d show (List.length l) (enumerate l) st) as Q. destruct (drawn src_tuple T sz nm st d show (Z.of_nat (List.length l) - 1) (enumerate l)) as [[st' fs] e].
    cbv zeta in Q. destruct Q as (E1 & _ & _ & _ & E5). rewrite <- E1, E5. unfold enumerate.
    assert (G : forall (l : list result) i k, nth_error (enum_from i l) k = option_map (fun r => (i + k, r)) (nth_error l k)).
    { clear. induction l as [|r l IH]; intros i [|k]; cbn; try reflexivity; [now rewrite Nat.add_0_r|]. rewrite IH. now rewrite Nat.add_succ_r. }
    assert (L : forall (l : list result) i, List.length (enum_from i l) = List.length l) by (clear; induction l as [|r l IH]; intros i; cbn; [reflexivity|now rewrite IH]).
    rewrite L, G. now destruct (nth_error l _).
  Qed.
  (** list(get_frames(...)) (Graph.get_frames, the subject of C54) is the generator alone *)
  Theorem C105_get_frames clock fuel st o d show : snd (get_frames src_tuple T sz nm clock fuel st o d show) =
    match the_exception (alone clock fuel o d show) with None => Ok (the_frames (alone clock fuel o d show)) | Some e => Err e end.
  Proof.
    unfold get_frames, alone. destruct (run_iter clock fuel o d) as [[l|e] o']; cbn [fst]; [|reflexivity].
    assert (G : forall rest st, snd (frames_loop src_tuple T sz nm st d show (Z.of_nat (List.length l) - 1) rest) =
      match the_exception (until_error (map (fun p => frame_or_error d show (List.length l) (fst p) (snd p)) rest)) with
      | None => Ok (the_frames (until_error (map (fun p => frame_or_error d show (List.length l) (fst p) (snd p)) rest))) | Some e => Err e end).
    { induction rest as [|[i r] rest IH]; intros st0; [reflexivity|]. cbn [frames_loop map until_error fst snd]. unfold frame_or_error at 1 3. rewrite z_one. destruct (show && Nat.eqb (List.length l) 1); [reflexivity|].
      cbv zeta. unfold progress_at at 1 2. match goal with |- context [render src_tuple T sz nm ?s d ?p] => pose proof (render_frame src_tuple T sz nm (rs_height st0) d r p) as Q; cbn [rs_height] in *; destruct (render src_tuple T sz nm s d p) as [st1 q] end.
      cbn [snd] in Q. rewrite <- Q. destruct q as [f|e]; [|reflexivity]. specialize (IH st1). destruct (frames_loop src_tuple T sz nm st1 d show (Z.of_nat (List.length l) - 1) rest) as [st2 fs]. cbn [snd] in IH |- *. rewrite IH. cbn [until_error].
      unfold the_exception at 2. cbn [filter]. change (match filter _ ?x with Raised e :: _ => Some e | _ => None end) with (the_exception x).
      destruct (the_exception _); reflexivity. }
    specialize (G (enumerate l) st). destruct (frames_loop src_tuple T sz nm st d show (Z.of_nat (List.length l) - 1) (enumerate l)). exact G.
  Qed.
End C105.

From Verif Require Import Float PropsFloat.
Module AnimatorExamples.
  Notation F := (B64 FloatExamples.lm).
  Definition T0 : trig F := @Trig F (fun _ _ => ofZ64 0) (fun _ => ofZ64 1) (fun _ => ofZ64 0) (ofZ64 3).
  Definition sz0 : sizes := Sizes 800 40 20 3 3 20.
  Definition nm0 : naming nat nat nat nat nat := base_naming (fun n => [N.of_nat n]) (fun n => [N.of_nat n]) (fun n => [N.of_nat n]) Nat.ltb Nat.ltb.
  Definition ts0 : list (nat * nat * nat) := [(1, 0, 5); (2, 0, 6)]%nat.
  Definition clk : nat -> F := fun _ => ofZ64 0.
  Definition st0 : rstate nat nat nat F := RState None (PlainScheme (F:=F)).
  Definition sums n : aobj nat nat nat F := AObj Sums FIXED (IFixed n 0) None.
  Definition shape (e : event F) : nat := match e with Frame _ => 0 | Raised GZeroDivision => 1 | Raised _ => 2 | Stopped => 3 end.
  Definition al n := fun d => map shape (alone (fun _ : nat => None) T0 sz0 nm0 clk 10 (sums n) d true).
  (** two rounds give three frames; no round gives one result, and the division by 0 *)
  Definition check : bool := match build (F:=F) false None ts0 with Ok d => beq (al 2 d) [0; 0; 0] && beq (al 0 d) [1] | Err _ => false end.
  Example shapes : check = true. Proof. vm_cast_no_check (eq_refl true). Qed.
  (** two generators sharing the renderer and the object, advanced in turn *)
  Definition w0 d : stage nat nat nat F := Stage st0 (fun _ => sums 2) (fun g => if Nat.ltb g 2 then Pending clk 10 0 d true else Over).
  Definition script : list (act nat nat nat F) := [Next 0; Next 1; Next 0; SetColours (PlainScheme (F:=F)); Next 0; Next 1; Next 0].
  Example interleaved : exists d f1 f2 f3, build (F:=F) false None ts0 = Ok d /\ events (fun _ : nat => None) T0 sz0 nm0 0 (w0 d) script = [Frame f1; Frame f2; Frame f3; Stopped] /\
    events (fun _ : nat => None) T0 sz0 nm0 1 (w0 d) script = [Frame f1; Frame f2].
  Proof.
    destruct (FloatExamples.strict_builds64 ts0) as [d E]; [unfold ts0, sv_pairs; cbn; repeat constructor; cbn; intuition congruence|].
    pose proof shapes as C. unfold check in C. rewrite E in C. apply andb_true_iff in C. destruct C as [C _]. apply (proj1 (beq_true _ _)) in C. unfold al in C.
    assert (R : real d) by (exists false, None, ts0; exact E).
    assert (Hg : forall j, gen_real (s_gens (w0 d) j)) by (intros j; cbn [w0 s_gens]; destruct (Nat.ltb j 2); [exact R|exact Logic.I]).
    assert (Ha : Forall act_real script) by (unfold script; repeat constructor).
    pose proof (C105_frames_do_not_interfere (fun _ : nat => None) T0 sz0 nm0 (w0 d) 0 script clk 10 0 d true Hg Ha eq_refl) as Q0.
    pose proof (C105_frames_do_not_interfere (fun _ : nat => None) T0 sz0 nm0 (w0 d) 1 script clk 10 0 d true Hg Ha eq_refl) as Q1.
    cbv zeta in Q0, Q1. cbn [w0 s_objs] in Q0, Q1. change (advanced 0 script) with 4 in Q0. change (advanced 1 script) with 2 in Q1.
    destruct (alone (fun _ : nat => None) T0 sz0 nm0 clk 10 (sums 2) d true) as [|e1 [|e2 [|e3 [|e4 l]]]]; try discriminate C.
    destruct e1 as [f1|[]|], e2 as [f2|[]|], e3 as [f3|[]|]; try discriminate C.
    exists d, f1, f2, f3. split; [exact E|]. split; [exact Q0|exact Q1].
  Qed.
End AnimatorExamples.
