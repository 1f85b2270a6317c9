(** Model of the animator objects of graphs/animation.py: the constructor, generators of frames that are advanced one at a time and
    share a renderer, and what is written to the output file. *)
From Coq Require Import String.
From Verif Require Import Base Num Sparse Dataset Iterators Algorithms Results PyStr Client Graph.

(** ** The constructor *)
(** GifAnimator, JsonAnimator (animation.py:75-98) *)
Inductive kind := Gif | Json.
(** A renderer's backend: the names of its class and of its ancestors (its __mro__).  Class names stand for the classes. *)
Definition backend := list pystr.
(** supported_backends (animation.py:80, 92) *)
Definition supported (k : kind) : pystr := match k with Gif => lit_str "PngBackend" | Json => lit_str "JsonBackend" end.
(** supported_backends[0]() (animation.py:28) *)
Definition default_backend (k : kind) : backend := [supported k; lit_str "BaseBackend"; lit_str "object"].
Inductive anim_err := AZeroDivision | ATypeError.
Section New.
  Context {F : Num}.
  (** __init__ (animation.py:20-37): the backend of the renderer that will be used and the frames per second; the message of the TypeError is left out *)
  Definition new_animator (k : kind) (renderer : option backend) (frame_duration : F) : res anim_err (backend * F) :=
    let b := match renderer with None => default_backend k | Some b => b end in
    if n_eqb frame_duration (n_ofZ 0) then Err AZeroDivision
    else let fps := n_div (n_ofZ 1) frame_duration in
    if existsb (beq (supported k)) b then Ok (b, fps) else Err ATypeError.
End New.

(** ** Frames *)
Section Frames.
  Context {S V W LS LV : Type} {ES : Eqb S} {EV : Eqb V} {EW : Eqb W} {EL : Eqb LV} {F : Num}.
  Variable src_tuple : S -> option (option (V * W)).
  Variable T : trig F.
  Variable sz : sizes.
  Variable nm : naming S V W LS LV.
  Notation data := (dataset S V W F).
  Notation result := (result S V W F).
  Notation rstate := (rstate S V W F).
  Notation drawing := (drawing F).
  Notation aobj := (aobj S V W F).

  (** A generator object made by get_frames (animation.py:49-65): nothing has run before the first next(); after it the partial results
      are in a tuple. *)
  Inductive generator :=
  | Pending (clock : nat -> F) (fuel : nat) (obj : nat) (d : data) (show_progress : bool)
  | Going (d : data) (show_progress : bool) (num_iterations : Z) (rest : list (nat * result))
  | Over.
  (** what a call of next() on it does: yields a frame, raises, or raises StopIteration *)
  Inductive event := Frame (f : drawing) | Raised (e : gerr) | Stopped.
  (** the body of the loop (animation.py:58-65) *)
  Definition next_frame (st : rstate) (d : data) (show_progress : bool) (num_iterations : Z) (l : list (nat * result)) : rstate * generator * event :=
    match l with
    | [] => (st, Over, Stopped)
    | (i, results) :: rest =>
        let st := RState (rs_height st) (GradientScheme results) in                                    (* animation.py:59 *)
        if show_progress && Z.eqb num_iterations 0 then (st, Over, Raised GZeroDivision)               (* 62 *)
        else
          let progress := if show_progress then Some (n_div (n_ofZ (Z.of_nat i)) (n_ofZ num_iterations)) else None in
          let (st', r) := render src_tuple T sz nm st d progress in                                    (* 63 *)
          match r with
          | Err e => (st', Over, Raised e)
          | Ok f => (st', Going d show_progress num_iterations rest, Frame f)
          end
    end.

  (** A program that holds one renderer, algorithm objects and generators of frames that use them *)
  Record stage := Stage { s_rend : rstate; s_objs : nat -> aobj; s_gens : nat -> generator }.
  Definition set_at {A} (f : nat -> A) (i : nat) (x : A) : nat -> A := fun j => if Nat.eqb j i then x else f j.
  (** what it can do: advance generator g, draw something else, assign other colours to the renderer, run an algorithm object, start a new generator *)
  Inductive act :=
  | Next (g : nat)
  | Render (d : data) (progress : option F)
  | Compile (d : data) (progress : option F)
  | SetColours (c : scheme S V W F)
  | Run (obj : nat) (clock : nat -> F) (fuel : nat) (d : data).
  Definition do_act (w : stage) (o : act) : stage * option event :=
    match o with
    | Render d p => (Stage (fst (render src_tuple T sz nm (s_rend w) d p)) (s_objs w) (s_gens w), None)
    | Compile d p => (Stage (fst (compile src_tuple T sz nm (s_rend w) d p)) (s_objs w) (s_gens w), None)
    | SetColours c => (Stage (RState (rs_height (s_rend w)) c) (s_objs w) (s_gens w), None)
    | Run i clock fuel d => (Stage (s_rend w) (set_at (s_objs w) i (snd (run clock fuel (s_objs w i) d))) (s_gens w), None)
    | Next g =>
        match s_gens w g with
        | Over => (w, Some Stopped)
        | Going d show n rest =>
            let '(st, gen, ev) := next_frame (s_rend w) d show n rest in (Stage st (s_objs w) (set_at (s_gens w) g gen), Some ev)
        | Pending clock fuel i d show =>
            let (r, o') := run_iter clock fuel (s_objs w i) d in                                       (* animation.py:55 *)
            let objs := set_at (s_objs w) i o' in
            match r with
            | Err e => (Stage (s_rend w) objs (set_at (s_gens w) g Over), Some (Raised (GAlgorithm e)))
            | Ok l =>
                let '(st, gen, ev) := next_frame (s_rend w) d show (Z.of_nat (List.length l) - 1) (enumerate l) in
                (Stage st objs (set_at (s_gens w) g gen), Some ev)
            end
        end
    end.
  (** what the calls of next() on generator g gave *)
  Fixpoint events (g : nat) (w : stage) (acts : list act) : list event :=
    match acts with
    | [] => []
    | o :: rest =>
        let (w', ev) := do_act w o in
        match o, ev with
        | Next g', Some ev => if Nat.eqb g' g then ev :: events g w' rest else events g w' rest
        | _, _ => events g w' rest
        end
    end.

  (** ** Writing (animation.py:39-47, 82-98) *)
  (** The frames a consumer of get_frames obtains before it ends, the exception it ends with, if any, and the renderer afterwards *)
  Fixpoint drawn (st : rstate) (d : data) (show_progress : bool) (num_iterations : Z) (l : list (nat * result)) : rstate * list drawing * option gerr :=
    match l with
    | [] => (st, [], None)
    | (i, results) :: rest =>
        let '(st', _, ev) := next_frame st d show_progress num_iterations [(i, results)] in
        match ev with
        | Frame f => let '(st'', fs, e) := drawn st' d show_progress num_iterations rest in (st'', f :: fs, e)
        | Raised e => (st', [], Some e)
        | Stopped => (st', [], None)
        end
    end.
  (** What reaches the file.  GIF: the frames given to writer.append_data, each as soon as it is drawn; JSON: one object, after all frames
      are drawn.  The conversion of a drawing to pixels and the GIF encoding are not modelled here. *)
  Inductive written := GifFrames (fs : list drawing) | JsonObject (fps : F) (fs : list drawing) | NothingWritten.
  Definition animate (k : kind) (fps : F) (clock : nat -> F) (fuel : nat) (st : rstate) (o : aobj) (d : data) (show_progress : bool) : rstate * written * res gerr unit :=
    match fst (run_iter clock fuel o d) with
    | Err e => (st, match k with Gif => GifFrames [] | Json => NothingWritten end, Err (GAlgorithm e))
    | Ok l =>
        let '(st', fs, e) := drawn st d show_progress (Z.of_nat (List.length l) - 1) (enumerate l) in
        (st', match k with Gif => GifFrames fs | Json => match e with None => JsonObject fps fs | Some _ => NothingWritten end end,
         match e with None => Ok tt | Some e => Err e end)
    end.
End Frames.
Arguments generator : clear implicits. Arguments event : clear implicits. Arguments stage : clear implicits. Arguments act : clear implicits. Arguments written : clear implicits.
