(** Further additions after comparing the statements with the English properties: C55 (which height compile keeps), C68 (exactly what cleaning removes;
    short rows of a truth file). *)
From Coq Require Import String.
From Verif Require Import Base Num Sparse Spec Dataset DatasetRep PropsData PyStr Matrix File PropsFile PropsTight Graph PropsGraph.

(** ** C55: compile called directly takes the height from the first data set it is given and keeps it for all later ones *)
Section Height.
  Context {S V W LS LV : Type} {ES : Eqb S} {EV : Eqb V} {EW : Eqb W} {EL : Eqb LV} {F : Num} {FOK : NumOK F}.
  Variables (src_tuple : S -> option (option (V * W))) (T : trig F) (sz : sizes) (nm : naming S V W LS LV).
  Theorem C55_first_height sch (d d' : dataset S V W F) p p' es : get_height sz d <> 0%Z ->
    snd (compile src_tuple T sz nm (fst (compile src_tuple T sz nm (RState None sch) d p)) d' p') = Ok es ->
    exists rest, es = Rectangle (n_ofZ 0) (n_ofZ 0) (get_background_colour sch) (n_ofZ (g_width sz)) (n_ofZ (get_height sz d)) :: rest.
  Proof. intros H. exact (C55_compile_keeps_height src_tuple T sz nm (get_height sz d) sch d' p' es H). Qed.
End Height.

(** ** C68 *)
(** cleaning removes the characters $ % + - and then the white space at both ends, and nothing else *)
Theorem C68_clean_exactly v t : clean_value v = t <->
  exists before after, filter (fun c => negb (mem c [36; 37; 43; 45]%N)) v = before ++ t ++ after /\ (forall c, In c before -> In c white_space) /\ (forall c, In c after -> In c white_space) /\
    (forall c t', t = c :: t' -> ~ In c white_space) /\ (forall c t', t = t' ++ [c] -> ~ In c white_space).
Proof. rewrite clean_filter. exact (C10_strip (filter wanted v) t). Qed.

(** a row of a truth file without date and symbol makes loading fail *)
Theorem C68_short_truth_row show_nat reader text row : In row (reader text) -> List.length row < 2 -> stock_values show_nat reader text = Err (OfReader UnpackError).
Proof.
  intros Hin Hr. unfold stock_values, file_values. assert (Q : exists ps, stock_truth show_nat (reader text) = (ps, Some UnpackError)).
  { induction (reader text) as [|r rows IH]; [destruct Hin|]. cbn [stock_truth]. destruct Hin as [<-|Hin].
    - destruct r as [|d0 [|y0 r]]; cbn in Hr; try lia; cbn [var_vals]; eauto.
    - destruct (IH Hin) as [ps ->]. destruct r as [|d0 [|y0 r]]; cbn [var_vals]; eauto. }
  destruct Q as [ps ->]. reflexivity.
Qed.
Example short_truth_row_met : stock_values (fun _ => []) (fun _ => [[lit_str "d"%string; lit_str "s"%string; lit_str "1"%string]; [lit_str "d"%string]]) [] = Err (OfReader UnpackError).
Proof. apply C68_short_truth_row with (row := [lit_str "d"%string]); [right; now left|cbn; lia]. Qed.
Example clean_exactly_met : clean_value (lit_str " $1.5 % "%string) = lit_str "1.5"%string.
Proof. reflexivity. Qed.
