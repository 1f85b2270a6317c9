(** Runs of algorithms in several threads (base.py:114-126 executed concurrently; the web server handles every request in a thread of its own).

    What threads can share is iterator objects: an algorithm object's other attributes that run changes (start_time, results_log) influence
    no score.  A step is what happens between two accesses to an iterator: Python may switch threads anywhere, but between those accesses a
    thread touches only its own local variables.  (Simplification: "it_count += 1" is one access.)  Times are left out of the results. *)
From Verif Require Import Base Num Sparse Spec Dataset Iterators Algorithms Driver Rounds.

Section Threads.
  Context {S V W : Type} {ES : Eqb S} {EV : Eqb V} {EW : Eqb W} {F : Num}.
  Notation data := (dataset S V W F).

  (** The two halves of compare: Iterator.compare increases the count (iterator.py:30-36), then the subclass looks at the vectors (103-112, 169-178). *)
  Definition bump (it : iterator F) : iterator F :=
    match it with
    | IFixed l n => IFixed l (Datatypes.S n)
    | IConv m t l n cur => IConv m t l (Datatypes.S n) cur
    | IOrd t n c => IOrd t (Datatypes.S n) c
    end.
  Definition judge (it : iterator F) (u v : vec F) : res aerr unit * iterator F :=
    match it with
    | IFixed l n => (Ok tt, it)
    | IConv m t l n cur => match get_distance m u v with Ok x => (Ok tt, IConv m t l n (Some x)) | Err e => (Err e, it) end
    | IOrd t n c =>
        match get_ranking_vector u, get_ranking_vector v with
        | Some r1, Some r2 => (Ok tt, IOrd t n (if vall_eq r1 r2 then Datatypes.S c else 0%nat))
        | _, _ => (Err KeyErr, it)
        end
    end.

  (** A call of run: the algorithm with its parameters and priors, a reference to its iterator object, the dataset. *)
  Record job := Job { j_alg : alg F; j_priors : prior; j_it : nat; j_data : data }.
  (** What a run gives, without the time: the exception, or the scores and the reported number of iterations. *)
  Definition outcome := res aerr (dict S F * dict V (dict W F) * option nat).
  (** Where a thread is in run (base.py:114-126) and _run (e.g. sums.py:13-31); x is (trust, belief). *)
  Inductive place :=
  | AtStart                                             (* before run *)
  | AtTest (x : vec F * vec F)                          (* before iterator.finished() *)
  | AtRound (x : vec F * vec F)                         (* after it answered False *)
  | AtCompare (u v : vec F) (x : vec F * vec F)         (* inside iterator.compare(u, v), the count being increased; x: the new scores *)
  | AtEnd (x : vec F * vec F).                          (* after the loop *)
  (** A thread: the calls of run it still has to make (the first is under way unless the thread is at the start), and the outcomes so far. *)
  Record thread := Thread { t_jobs : list job; t_place : place; t_done : list outcome }.

  Fixpoint put {A} (l : list A) (i : nat) (x : A) : list A :=
    match l, i with
    | [], _ => []
    | _ :: t, O => x :: t
    | y :: t, Datatypes.S i => y :: put t i x
    end.
  Notation heap := (list (iterator F)).
  (** One step of a thread that has a call to make: from the state of the iterator of that call, the thread afterwards and the new state. *)
  Definition jstep (t : thread) (j : job) (js : list job) (it : iterator F) : thread * iterator F :=
    let ends o := Thread js AtStart (t_done t ++ [o]) in
    let at_ p := Thread (j :: js) p (t_done t) in
    match t_place t with
    | AtStart =>
        if Nat.eqb (num_claims (j_data j)) 0 then (ends (Err EmptyDatasetError), it)        (* base.py:115 *)
        else match init (j_alg j) (j_priors j) (j_data j) with                              (* base.py:116, start of _run *)
             | None => (ends (Err InvalidPriorError), reset it)
             | Some x => (at_ (AtTest x), reset it)
             end
    | AtTest x =>
        match finished it with
        | Err e => (ends (Err e), it)
        | Ok true => (at_ (AtEnd x), it)
        | Ok false => (at_ (AtRound x), it)
        end
    | AtRound x =>
        match round (j_alg j) (j_data j) x with
        | UBreak => (at_ (AtEnd x), it)
        | UFail e => (ends (Err e), it)
        | UNext u v y => (at_ (AtCompare u v y), bump it)
        end
    | AtCompare u v y =>
        match judge it u v with
        | (Err e, it') => (ends (Err e), it')
        | (Ok _, it') => (at_ (AtTest y), it')
        end
    | AtEnd x =>
        match final (j_alg j) it x with
        | Err e => (ends (Err e), it)
        | Ok (trust, belief) =>
            match get_source_trust_dict (j_data j) trust, get_belief_dict (j_data j) belief with
            | Some tr, Some be => (ends (Ok (tr, be, Some (it_count it))), it)              (* base.py:121-126 *)
            | _, _ => (ends (Err KeyErr), it)
            end
        end
    end.
  (** one step of a thread; the iterator objects are in the heap *)
  Definition tstep (t : thread) (h : heap) : thread * heap :=
    match t_jobs t with
    | [] => (t, h)
    | j :: js =>
        match nth_error h (j_it j) with
        | None => (t, h)
        | Some it => let (t', it') := jstep t j js it in (t', put h (j_it j) it')
        end
    end.

  (** All threads and the iterator objects; thread i makes a step. *)
  Definition world := (list thread * heap)%type.
  Definition wstep (w : world) (i : nat) : world :=
    match nth_error (fst w) i with
    | None => w
    | Some t => let (t', h') := tstep t (snd w) in (put (fst w) i t', h')
    end.
  Definition wrun (w : world) (schedule : list nat) : world := fold_left wstep schedule w.
  (** threads about to make these calls *)
  Definition starting (calls : list (list job)) (h : heap) : world := (map (fun js => Thread js AtStart []) calls, h).
  (** the outcomes thread i has so far *)
  Definition outcomes (w : world) (i : nat) : list outcome := match nth_error (fst w) i with Some t => t_done t | None => [] end.

  (** A result without its time *)
  Definition untimed (r : res aerr (result S V W F)) : outcome :=
    match r with Ok r => Ok (r_trust r, r_belief r, r_iterations r) | Err e => Err e end.
End Threads.
Arguments job : clear implicits. Arguments thread : clear implicits. Arguments outcome : clear implicits. Arguments world : clear implicits.
