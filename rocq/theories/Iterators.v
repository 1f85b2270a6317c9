(** Model of truthdiscovery/utils/iterator.py. *)
From Verif Require Import Base Num.
Local Open Scope num_scope.

(** Exceptions raised while an algorithm runs. *)
Inductive aerr :=
| EmptyDatasetError                 (* algorithm/base.py:38 *)
| ConvergenceError                  (* iterator.py:123 *)
| InvalidPriorError                 (* ValueError of base.py:110-112 *)
| InvalidMeasureError               (* ValueError of iterator.py:151-153 *)
| NegativeLimitError                (* ValueError of iterator.py:64 *)
| NoSuchMethod                      (* AttributeError: iterator has no get_ranking_vector (unboundedsums.py:33) *)
| KeyErr                            (* KeyError *)
| EmptySequence                     (* ValueError: max() of an empty sequence *)
| OutOfFuel.                        (* not a Python exception: the model's loop bound was reached *)

(** DistanceMeasures (iterator.py:8-21); [BadMeasure] is any object that is not an item of the enumeration. *)
Inductive measure := L1 | L2 | L_INF | COSINE | BadMeasure.

Section Iterators.
  Context {F : Num}.

  (** ** Vector norms (np.linalg.norm) *)
  Definition norm1 (v : vec F) : F := vsum (map n_abs v).
  Definition dot (v w : vec F) : F := vsum (vmul v w).
  Definition norm2 (v : vec F) : F := n_sqrt (dot v v).
  Definition norm_inf (v : vec F) : option F := npmax (map n_abs v).
  (* np.clip(x, 0, 1); NaN stays NaN *)
  Definition clip01 (x : F) : F := if x <? 0 then 0 else if 1 <? x then 1 else x.

  (** ConvergenceIterator.get_distance (iterator.py:128-153) *)
  Definition get_distance (m : measure) (obj1 obj2 : vec F) : res aerr F :=
    match m with
    | L1 => Ok (norm1 (vsub obj1 obj2))
    | L2 => Ok (norm2 (vsub obj1 obj2))
    | L_INF => match norm_inf (vsub obj1 obj2) with Some x => Ok x | None => Err EmptySequence end
    | COSINE =>
        let n1 := norm2 obj1 in
        let n2 := norm2 obj2 in
        if (n1 =? 0) || (n2 =? 0) then Ok 1
        else Ok (clip01 (1 - dot obj1 obj2 / (n1 * n2)))
    | BadMeasure => Err InvalidMeasureError
    end.

  (** ** OrdinalConvergenceIterator.get_ranking_vector (iterator.py:183-198) *)
  (* v[np.argsort(v)]: the entries in ascending order.  The position given to NaN does not matter: a NaN makes the
     lookup of line 197 fail, NaN not being equal to any key. *)
  Fixpoint sort_insert (x : F) (l : list F) : list F :=
    match l with
    | [] => [x]
    | y :: t => if y <? x then y :: sort_insert x t else x :: l
    end.
  Definition vsort (v : vec F) : vec F := fold_right sort_insert [] v.
  (* d[k] = r on a dict keyed by floats, and d[k] *)
  Fixpoint fset (d : list (F * Z)) (k : F) (r : Z) : list (F * Z) :=
    match d with
    | [] => [(k, r)]
    | (k', r') :: t => if k =? k' then (k', r) :: t else (k', r') :: fset t k r
    end.
  Fixpoint fget (d : list (F * Z)) (k : F) : option Z :=
    match d with [] => None | (k', r) :: t => if k =? k' then Some r else fget t k end.
  (* the loop of lines 189-193; [prev] is sorted_scores[i - 1], absent for i = 0 *)
  Fixpoint rank_loop (prev : option F) (l : list F) (rank : Z) (rank_mapping : list (F * Z)) : list (F * Z) :=
    match l with
    | [] => rank_mapping
    | sc :: t =>
        let rank' := match prev with Some p => if p <? sc then (rank + 1)%Z else rank | None => rank end in
        rank_loop (Some sc) t rank' (fset rank_mapping sc rank')
    end.
  (* None is the KeyError of line 197 *)
  Fixpoint rank_lookup (m : list (F * Z)) (v : vec F) : option (vec F) :=
    match v with
    | [] => Some []
    | sc :: t => match fget m sc, rank_lookup m t with Some r, Some rv => Some (n_ofZ r :: rv) | _, _ => None end
    end.
  Definition get_ranking_vector (v : vec F) : option (vec F) := rank_lookup (rank_loop None (vsort v) 0%Z []) v.

  (** ** Iterator objects: configuration and mutable state together *)
  Inductive iterator :=
  | IFixed (limit : Z) (it_count : nat)                                            (* iterator.py:51-68 *)
  | IConv (m : measure) (threshold : F) (limit : Z) (it_count : nat) (current : option F)   (* 71-153 *)
  | IOrd (threshold : Z) (it_count : nat) (current_count : nat).                   (* 156-202 *)

  (** Constructors (iterator.py:57-65, 82-97, 164-167).  [None] stands for an omitted or None argument. *)
  Definition mk_fixed (limit : option Z) : res aerr iterator :=
    match limit with
    | Some l => if (l <? 0)%Z then Err NegativeLimitError else Ok (IFixed l 0)
    | None => Ok (IFixed 20 0)
    end.
  Definition mk_conv (m : measure) (threshold : option F) (limit : option Z) : iterator :=
    IConv m (match threshold with Some t => t | None => lit 1 10000 end)
      (match limit with Some l => l | None => 1000000%Z end) 0 None.
  Definition mk_ord (threshold : option Z) : iterator :=
    IOrd (match threshold with Some t => t | None => 20%Z end) 0 0.

  Definition it_count (it : iterator) : nat :=
    match it with IFixed _ n => n | IConv _ _ _ n _ => n | IOrd _ n _ => n end.

  (** reset (iterator.py:44-48, 99-101, 200-202) *)
  Definition reset (it : iterator) : iterator :=
    match it with
    | IFixed l _ => IFixed l 0
    | IConv m t l _ _ => IConv m t l 0 None
    | IOrd t _ _ => IOrd t 0 0
    end.

  (** finished (iterator.py:67-68, 114-126, 180-181) *)
  Definition finished (it : iterator) : res aerr bool :=
    match it with
    | IFixed limit n => Ok (limit <=? Z.of_nat n)%Z
    | IConv _ thr limit n cur =>
        if match cur with Some x => x <? thr | None => false end then Ok true
        else if (limit <=? Z.of_nat n)%Z then Err ConvergenceError
        else Ok false
    | IOrd thr _ c => Ok (thr <=? Z.of_nat c)%Z
    end.

  (* np.all(r1 == r2) for vectors of the same length *)
  Definition vall_eq (a b : vec F) : bool := forallb (fun x => x) (zipw n_eqb a b).

  (** compare (iterator.py:30-36, 103-112, 169-178).  The iteration count is increased first, so it has changed even if
      computing the distance or the ranking raises: the new iterator is returned in both cases. *)
  Definition compare (it : iterator) (obj1 obj2 : vec F) : res aerr unit * iterator :=
    match it with
    | IFixed l n => (Ok tt, IFixed l (S n))
    | IConv m t l n cur =>
        match get_distance m obj1 obj2 with
        | Ok x => (Ok tt, IConv m t l (S n) (Some x))
        | Err e => (Err e, IConv m t l (S n) cur)
        end
    | IOrd t n c =>
        match get_ranking_vector obj1, get_ranking_vector obj2 with
        | Some r1, Some r2 => (Ok tt, IOrd t (S n) (if vall_eq r1 r2 then S c else 0%nat))
        | _, _ => (Err KeyErr, IOrd t (S n) c)
        end
    end.
  (** With [debug], a ConvergenceIterator prints its count and the new distance at the end of compare (iterator.py:111-112): the
      line printed by a call that has left the iterator in this state. *)
  Definition debug_line (it : iterator) : list (nat * F) :=
    match it with IConv _ _ _ n (Some x) => [(n, x)] | _ => [] end.
End Iterators.
Arguments iterator : clear implicits.
