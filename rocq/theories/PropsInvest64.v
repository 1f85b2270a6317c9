(** C95: Investment and PooledInvestment in IEEE double arithmetic: as long as no trust becomes tiny, every score is a number. *)
From Coq Require Import Reals Lra.
From Flocq Require Import Core IEEE754.BinarySingleNaN.
From Verif Require Import Base Num Sparse Spec SpecAlg Dataset DatasetProofs DatasetRep Iterators Algorithms Driver Rounds
  AlgRep AlgRounds PropsData PropsIter PropsRun PropsAlg Float PropsFloat PropsVote64 PropsTF64 PropsAccuracy PropsAvlog64 PropsCrh64.
Local Open Scope R_scope.

(** What is assumed of the C library's pow(x, g): for x in [0, 2^320] a number in [0, 2^800], and at least 2^-1000 if x >= 2^-480.
    (True of x^g for 0 <= g <= 2; the code's defaults are 1.2 and 1.4.) *)
Definition usable_pow (L : libm) (g : b64) : Prop :=
  (forall x, double_in 0 (bpow radix2 320) x -> double_in 0 (bpow radix2 800) (lm_pow L x g)) /\
  (forall x, double_in (bpow radix2 (-480)) (bpow radix2 320) x -> bpow radix2 (-1000) <= B2R64 (lm_pow L x g)).
(** a double that is a number and at least 2^-100 *)
Definition not_tiny (v : b64) : Prop := is_finite v = true /\ bpow radix2 (-100) <= B2R64 v.

(** the sum of non-negative doubles is at most 2^54 times the largest *)
Lemma sum_by_max64 {A} (h : A -> b64) (l : list A) x0 q0 : (Z.of_nat (length l) <= 2 ^ 53)%Z -> In x0 l -> isf (h x0) q0 -> 0 < q0 <= bpow radix2 800 ->
  (forall x, In x l -> exists q, isf (h x) q /\ 0 <= q <= q0) ->
  exists r, isf (fold_left (Bplus mode_NE) (map (fun x => Bmult mode_NE (ofZ64 1) (h x)) l) (ofZ64 0)) r /\ q0 <= r <= q0 * bpow radix2 54.
Proof.
  intros Hl Hx0 Hq0 P0 Hh. set (e := (mag radix2 q0 : Z)).
  assert (M : bpow radix2 (e - 1) <= q0 < bpow radix2 e).
  { pose proof (bpow_mag_le radix2 q0 ltac:(lra)) as M1. pose proof (bpow_mag_gt radix2 q0) as M2. rewrite Rabs_pos_eq in M1, M2 by lra. exact (conj M1 M2). }
  assert (Le : (-1073 <= e)%Z).
  { apply (mag_ge_bpow radix2 q0 (-1073)). rewrite Rabs_pos_eq by lra. change (-1073 - 1)%Z with (-1074)%Z. pose proof (isf_fmt _ _ Hq0) as G. apply (generic_format_ge_bpow radix2 fexp64 (-1074)); [intros z; unfold fexp64, SpecFloat.fexp; apply Z.le_max_r || (unfold FLT_exp; lia)|lra|exact G]. }
  assert (Ue : (e <= 801)%Z). { apply (mag_le_bpow radix2 q0 801); [lra|]. rewrite Rabs_pos_eq by lra. apply Rle_lt_trans with (bpow radix2 800); [lra|apply bpow_lt; lia]. }
  destruct (sum64 e (map (fun x => Bmult mode_NE (ofZ64 1) (h x)) l) 0 (ofZ64 0) 0) as (r & H1 & H2 & H3); [lia|rewrite map_length; exact Hl|exact zero64|cbn; lra| |].
  - intros y Hy. apply in_map_iff in Hy. destruct Hy as (x & <- & Hx). destruct (Hh x Hx) as (q & Hq & Hq'). exists q. split; [apply one_mul64; [exact Hq|lra]|lra].
  - exists r. split; [exact H1|]. split.
    + apply (H3 (Bmult mode_NE (ofZ64 1) (h x0))); [apply in_map_iff; eauto|apply one_mul64; [exact Hq0|lra]].
    + rewrite map_length in H2. cbn [Nat.add] in H2. eapply Rle_trans; [apply H2|]. eapply Rle_trans; [apply INR_few; exact Hl|].
      replace (e + 53)%Z with ((e - 1) + 54)%Z by lia. rewrite bpow_plus. apply Rmult_le_compat_r; [apply bpow_ge_0|lra].
Qed.
(** a list of finite doubles has a largest *)
Lemma argmax64 {A} (h : A -> b64) (l : list A) : l <> [] -> (forall x, In x l -> exists q, isf (h x) q) ->
  exists x0 q0, In x0 l /\ isf (h x0) q0 /\ forall x q, In x l -> isf (h x) q -> q <= q0.
Proof.
  induction l as [|x l IH]; [congruence|]. intros _ H. destruct (H x (or_introl eq_refl)) as (q & Hq). destruct l as [|y l].
  - exists x, q. split; [now left|]. split; [exact Hq|]. intros z qz [<-|[]] Hz. rewrite (isf_fun _ _ _ Hz Hq). lra.
  - destruct IH as (x0 & q0 & H1 & H2 & H3); [discriminate|intros z Hz; apply H; now right|]. destruct (Rle_dec q q0) as [G|G].
    + exists x0, q0. split; [now right|]. split; [exact H2|]. intros z qz [<-|Hz] Hq'; [rewrite (isf_fun _ _ _ Hq' Hq); lra|eauto].
    + exists x, q. split; [now left|]. split; [exact Hq|]. intros z qz [<-|Hz] Hq'; [rewrite (isf_fun _ _ _ Hq' Hq); lra|pose proof (H3 z qz Hz Hq'); lra].
Qed.

Section C95.
  Context {S V W : Type} {ES : Eqb S} {EV : Eqb V} {EW : Eqb W}.
  Variable L : libm.
  Notation F := (B64 L).
  Variable gm : F.
  Hypothesis Pow : usable_pow L gm.
  Notation data := (dataset S V W F).
  Notation claim := (V * W)%type.
  Notation result := (result S V W b64).
  Notation cap := (2 ^ 53)%Z.
  Variables (b : bool) (f : option (V -> W -> W -> option F)) (ts : list (S * V * W)) (d : data).
  Hypothesis Hb : build (F:=F) b f ts = Ok d.
  Hypothesis Small_s : (Z.of_nat (length (sources ts)) <= cap)%Z.
  Hypothesis Small_c : (Z.of_nat (length (claims ts)) <= cap)%Z.
  Let R0 : ds_rep (F:=F) ts f d := build_rep _ _ _ _ Hb.
  Notation cnt := (tb64 ts (fun _ => ofZ64 1)).
  (** what a source invests in each of its claims, what a claim receives, what a source gets back *)
  Definition iv64 (t : S -> b64) (s : S) : b64 := Bdiv mode_NE (t s) (cnt s).
  Definition ci64 (t : S -> b64) (c : claim) : b64 := tt64 ts (iv64 t) c.
  Definition share64 (t : S -> b64) (g : claim -> b64) (c : claim) : b64 := Bmult mode_NE (Bmult mode_NE (ofZ64 1) (Bdiv mode_NE (ofZ64 1) (ci64 t c))) (g c).
  Definition back64 (t : S -> b64) (g : claim -> b64) (s : S) : b64 :=
    Bmult mode_NE (iv64 t s) (fold_left (Bplus mode_NE) (map (share64 t g) (claims_of ts s)) (ofZ64 0)).
  Definition base64 (t : S -> b64) (g : claim -> b64) (c : claim) : b64 := ci64 (back64 t g) c.
  Definition ret64 (t : S -> b64) (g : claim -> b64) (c : claim) : b64 := lm_pow L (base64 t g c) gm.
  Definition pool64 (t : S -> b64) (g : claim -> b64) (c : claim) : b64 := Bmult mode_NE (base64 t g c) (Bdiv mode_NE (ret64 t g c) (tr64 ts (ret64 t g) c)).

  Lemma cnt64 s : In s (sources ts) -> exists n, isf (cnt s) n /\ 1 <= n <= bpow radix2 53.
  Proof.
    intros Hs. exists (INR (length (claims_of ts s))). split; [apply (count_exact (claims_of ts s) 0); [cbn [Nat.add]; now apply few_of|exact zero64]|]. split.
    - apply (le_INR 1). destruct (claims_of_ne ts s Hs) as (c & Hc). destruct (claims_of ts s); [destruct Hc|cbn; lia].
    - rewrite INR_IZR_INZ. apply (IZR_le _ cap). now apply few_of.
  Qed.
  Lemma counts64 : claim_counts (F:=F) d = map cnt (sources ts).
  Proof. unfold claim_counts. rewrite (rep_nc _ _ _ R0), (ones64 L). apply (sc64 L b f ts d Hb). Qed.
  Lemma iv_vec t : vdiv (F:=F) (map t (sources ts)) (claim_counts d) = map (iv64 t) (sources ts).
  Proof. rewrite counts64. unfold vdiv. apply (zipw_map2 (@n_div F)). Qed.
  Lemma supp_src c s : In s (supporters ts c) -> In s (sources ts). Proof. unfold supporters. rewrite filter_In. tauto. Qed.
  Lemma cl_cl c s : In c (claims_of ts s) -> In c (claims ts). Proof. unfold claims_of. rewrite filter_In. tauto. Qed.
  Lemma bp0 : bpow radix2 0 = 1. Proof. reflexivity. Qed.
  (** invested amounts, from trusts between 2^lo and 2^hi *)
  Lemma iv_range t s lo hi : In s (sources ts) -> within (bpow radix2 lo) (bpow radix2 hi) (t s) -> (-1000 <= lo)%Z -> (hi <= 1000)%Z -> within (bpow radix2 (lo - 53)) (bpow radix2 hi) (iv64 t s).
  Proof.
    intros Hs (r & Hr & Hr') H1 H2. destruct (cnt64 s Hs) as (n & Hn & Hn'). pose proof (bpow_gt_0 radix2 lo) as P.
    assert (lo <= hi)%Z by (apply (le_bpow radix2); lra).
    destruct (div_up64 _ _ r n hi 0 Hr Hn) as (A & B); [lra|rewrite bp0; lra|lia|]. exists (rnd (r / n)). split; [exact A|]. rewrite Z.sub_0_r in B. split; [|apply B].
    apply (div_low r n lo 53); [tauto|lra|lia].
  Qed.
  Lemma iv_zero t s hi : In s (sources ts) -> within 0 (bpow radix2 hi) (t s) -> (-1000 <= hi <= 1000)%Z -> within 0 (bpow radix2 hi) (iv64 t s).
  Proof.
    intros Hs (r & Hr & Hr') H2. destruct (cnt64 s Hs) as (n & Hn & Hn').
    destruct (div_up64 _ _ r n hi 0 Hr Hn) as (A & B); [lra|rewrite bp0; lra|lia|]. rewrite Z.sub_0_r in B. exists (rnd (r / n)). split; [exact A|exact B].
  Qed.
  Lemma ci_range t c hi : In c (claims ts) -> (forall s, In s (sources ts) -> within 0 (bpow radix2 hi) (iv64 t s)) -> (-1000 <= hi <= 700)%Z ->
    exists r, isf (ci64 t c) r /\ 0 <= r <= bpow radix2 (hi + 53) /\ forall s q, In s (supporters ts c) -> isf (iv64 t s) q -> q <= r.
  Proof.
    intros Hc Ht He. destruct (rowsum64 hi (iv64 t) (supporters ts c)) as (r & H1 & H2 & H3); [lia|now apply few_of|intros s Hs; apply Ht; eapply supp_src; eauto|].
    exists r. split; [exact H1|]. split; [|exact H3]. split; [tauto|]. eapply Rle_trans; [apply H2|]. apply INR_few. now apply few_of.
  Qed.

  Section Round.
    Variables (t : S -> b64) (g : claim -> b64).
    Hypothesis Ht : forall s, In s (sources ts) -> within (bpow radix2 (-100)) 1 (t s).
    Hypothesis Hg : forall c, In c (claims ts) -> within 0 (bpow radix2 53) (g c).
    Hypothesis Hc0 : exists c q, In c (claims ts) /\ isf (g c) q /\ bpow radix2 (-120) <= q.
    Lemma rd_iv s : In s (sources ts) -> within (bpow radix2 (-153)) (bpow radix2 0) (iv64 t s).
    Proof. intros Hs. apply (iv_range t s (-100) 0 Hs); [rewrite bp0; auto|lia|lia]. Qed.
    Lemma rd_ci c : In c (claims ts) -> exists r, isf (ci64 t c) r /\ bpow radix2 (-153) <= r <= bpow radix2 53.
    Proof.
      intros Hc. destruct (ci_range t c 0 Hc) as (r & H1 & H2 & H3); [|lia|].
      - intros s Hs. destruct (rd_iv s Hs) as (q & Hq & Hq'). exists q. split; [exact Hq|]. pose proof (bpow_gt_0 radix2 (-153)). lra.
      - exists r. split; [exact H1|]. split; [|apply H2]. destruct (supporters_ne ts c Hc) as [s Hs]. destruct (rd_iv s (supp_src c s Hs)) as (q & Hq & Hq'). pose proof (H3 s q Hs Hq). lra.
    Qed.
    Lemma rd_recip c : In c (claims ts) -> within (bpow radix2 (-53)) (bpow radix2 153) (Bmult mode_NE (ofZ64 1) (Bdiv mode_NE (ofZ64 1) (ci64 t c))).
    Proof.
      intros Hc. destruct (rd_ci c Hc) as (r & Hr & Hr'). pose proof (bpow_gt_0 radix2 (-153)) as P. destruct (div_up64 _ _ 1 r 0 (-153) one64 Hr) as (A & B); [rewrite bp0; lra|tauto|lia|].
      exists (rnd (1 / r)). split; [apply one_mul64; [exact A|tauto]|]. split; [|apply B]. apply (div_low 1 r 0 53); [rewrite bp0; lra|lra|lia].
    Qed.
    Lemma rd_share c : In c (claims ts) -> exists r, isf (share64 t g c) r /\ 0 <= r <= bpow radix2 206 /\ forall q, isf (g c) q -> bpow radix2 (-120) <= q -> bpow radix2 (-173) <= r.
    Proof.
      intros Hc. destruct (rd_recip c Hc) as (u & Hu & Hu'). destruct (Hg c Hc) as (v & Hv & Hv'). pose proof (bpow_gt_0 radix2 (-53)) as P. destruct (mul_up64 _ _ u v 153 53 Hu Hv) as (A & B); [lra|exact Hv'|lia|].
      exists (rnd (u * v)). split; [exact A|]. split; [exact B|]. intros q Hq Hl. rewrite (isf_fun _ _ _ Hq Hv) in Hl. apply (mul_low u v (-53) (-120)); [tauto|exact Hl|lia].
    Qed.
    Lemma rd_back s : In s (sources ts) -> exists r, isf (back64 t g s) r /\ 0 <= r <= bpow radix2 259 /\ forall c q, In c (claims_of ts s) -> isf (g c) q -> bpow radix2 (-120) <= q -> bpow radix2 (-326) <= r.
    Proof.
      intros Hs. destruct (rd_iv s Hs) as (u & Hu & Hu').
      destruct (sum64 206 (map (share64 t g) (claims_of ts s)) 0 (ofZ64 0) 0) as (v & H1 & H2 & H3); [lia|rewrite map_length; now apply few_of|exact zero64|cbn; lra| |].
      { intros y Hy. apply in_map_iff in Hy. destruct Hy as (c & <- & Hc). destruct (rd_share c (cl_cl c s Hc)) as (r & Hr & Hr' & _). exists r. auto. }
      rewrite map_length in H2. cbn [Nat.add] in H2. assert (V2 : v <= bpow radix2 259) by (eapply Rle_trans; [apply H2|apply (INR_few _ 206); now apply few_of]).
      pose proof (bpow_gt_0 radix2 (-153)) as P. destruct (mul_up64 _ _ u v 0 259 Hu H1) as (A & B); [lra|lra|lia|]. exists (rnd (u * v)). split; [exact A|]. split; [exact B|].
      intros c q Hc Hq Hl. destruct (rd_share c (cl_cl c s Hc)) as (r & Hr & _ & Low). specialize (Low q Hq Hl). pose proof (H3 (share64 t g c) r (in_map _ _ _ Hc) Hr). apply (mul_low u v (-153) (-173)); [tauto|lra|lia].
    Qed.
    Lemma rd_base c : In c (claims ts) -> exists r, isf (base64 t g c) r /\ 0 <= r <= bpow radix2 312 /\ forall s q, In s (supporters ts c) -> isf (back64 t g s) q -> bpow radix2 (-427) <= q -> bpow radix2 (-480) <= r.
    Proof.
      intros Hc. unfold base64. destruct (ci_range (back64 t g) c 259 Hc) as (r & H1 & H2 & H3); [|lia|].
      - intros s Hs. apply iv_zero; [exact Hs| |lia]. destruct (rd_back s Hs) as (q & Hq & Hq' & _). exists q. auto.
      - exists r. split; [exact H1|]. split; [exact H2|]. intros s q Hs Hq Hl. pose proof (supp_src c s Hs) as Hs'.
        assert (Hq' : q <= bpow radix2 259) by (destruct (rd_back s Hs') as (q2 & Hq2 & Hq2' & _); rewrite (isf_fun _ _ _ Hq Hq2); tauto).
        destruct (iv_range (back64 t g) s (-427) 259 Hs') as (z & Hz & Hz'); [exists q; auto|lia|lia|]. pose proof (H3 s z Hs Hz). change (-427 - 53)%Z with (-480)%Z in Hz'. lra.
    Qed.
    Lemma rd_ret c : In c (claims ts) -> exists r, isf (ret64 t g c) r /\ 0 <= r <= bpow radix2 800 /\ forall q, isf (base64 t g c) q -> bpow radix2 (-480) <= q -> bpow radix2 (-1000) <= r.
    Proof.
      intros Hc. destruct (rd_base c Hc) as (r & Hr & Hr' & _). assert (U : bpow radix2 312 <= bpow radix2 320) by (apply bpow_le; lia).
      assert (D : double_in 0 (bpow radix2 320) (base64 t g c)) by (apply within_double; exists r; split; [exact Hr|lra]).
      pose proof (proj1 Pow _ D) as P1. exists (B2R64 (ret64 t g c)). destruct P1 as [P1 P2]. split; [split; [exact P1|reflexivity]|]. split; [exact P2|].
      intros q Hq Hl. apply (proj2 Pow). apply within_double. exists q. split; [exact Hq|]. rewrite (isf_fun _ _ _ Hq Hr) in Hl |- *. lra.
    Qed.
    (** the source that backs the claim of belief at least 2^-120 gets something back, and so the claim *)
    Lemma rd_some : ts <> [] /\ (exists s q, In s (sources ts) /\ isf (back64 t g s) q /\ bpow radix2 (-326) <= q) /\ (exists c q, In c (claims ts) /\ isf (ret64 t g c) q /\ 0 < q).
    Proof.
      destruct Hc0 as (c & q & Hc & Hq & Hl). destruct (supporters_ne ts c Hc) as [s Hs]. pose proof (supp_src c s Hs) as Hs'.
      destruct (rd_back s Hs') as (r & Hr & _ & Low). assert (Hcs : In c (claims_of ts s)) by (unfold claims_of, supporters in *; apply filter_In in Hs; apply filter_In; tauto).
      specialize (Low c q Hcs Hq Hl). split; [intros E; rewrite E in Hc; destruct Hc|]. split; [eauto 6|].
      destruct (rd_base c Hc) as (u & Hu & _ & Lu). assert (B : bpow radix2 (-427) <= bpow radix2 (-326)) by (apply bpow_le; lia). specialize (Lu s r Hs Hr ltac:(lra)).
      destruct (rd_ret c Hc) as (v & Hv & _ & Lv). specialize (Lv u Hu Lu). exists c, v. split; [exact Hc|]. split; [exact Hv|]. pose proof (bpow_gt_0 radix2 (-1000)). lra.
    Qed.
    Lemma rd_update : update_trust (F:=F) (map t (sources ts)) (claim_counts d) (sc d) (map g (claims ts)) = Some (map (back64 t g) (sources ts)).
    Proof.
      unfold update_trust. rewrite iv_vec, (scT64 L b f ts d Hb). change (map (tt64 ts (iv64 t)) (claims ts)) with (map (ci64 t) (claims ts)).
      assert (Nz : existsb (fun x => n_eqb (n:=F) x (n_ofZ 0)) (map (ci64 t) (claims ts)) = false).
      { destruct (existsb _ _) eqn:Ex; [|reflexivity]. apply existsb_exists in Ex. destruct Ex as (y & Hy & Ey). apply in_map_iff in Hy. destruct Hy as (c & <- & Hc). destruct (rd_ci c Hc) as (r & Hr & Hr').
        change (Beqb (ci64 t c) (ofZ64 0) = true) in Ey. rewrite (eqb64 _ _ _ _ Hr zero64) in Ey. destruct (reqb_spec r 0) as [Z0|Z0]; [pose proof (bpow_gt_0 radix2 (-153)); lra|discriminate]. }
      rewrite Nz. f_equal. unfold sdivv. rewrite map_map.
      unfold vmul. match goal with |- zipw _ _ ?v = _ => replace v with (map (fun s => fold_left (Bplus mode_NE) (map (share64 t g) (claims_of ts s)) (ofZ64 0)) (sources ts)) end; [apply (zipw_map2 (@n_mul F))|].
      symmetry. exact (mv_rep (F:=F) _ _ _ _ _ g (mmulc_rep _ _ _ _ _ (fun c => Bdiv mode_NE (ofZ64 1) (ci64 t c) : F) (rep_sc _ _ _ R0))).
    Qed.
    (** the next trusts and beliefs *)
    Lemma rd_trust : exists m, pymax (F:=F) (map (back64 t g) (sources ts)) = Some m /\
      (forall s, In s (sources ts) -> within 0 1 (Bdiv mode_NE (back64 t g s) m)) /\ (exists s, In s (sources ts) /\ Bdiv mode_NE (back64 t g s) m = ofZ64 1) /\
      (forall s, In s (sources ts) -> not_tiny (Bdiv mode_NE (back64 t g s) m) -> exists q, isf (back64 t g s) q /\ bpow radix2 (-427) <= q).
    Proof.
      destruct rd_some as (NE & (s0 & q0 & Hs0 & Hq0 & Pq0) & _). pose proof (bpow_gt_0 radix2 (-326)) as P3.
      assert (Fin1 : forall s, In s (sources ts) -> within 0 (bpow radix2 259) (back64 t g s)) by (intros s Hs; destruct (rd_back s Hs) as (r & Hr & Hr' & _); exists r; auto).
      destruct (by_max64 L (back64 t g) (sources ts) (bpow radix2 259) (src_ne ts NE) Fin1) as (m & Em & _ & H1 & H2). { exists s0, q0. split; [exact Hs0|]. split; [exact Hq0|lra]. }
      exists m. split; [exact Em|]. split; [exact H1|]. split; [exact H2|]. intros s Hs [Hf Hl]. destruct (Fin1 s Hs) as (r & Hr & Hr'). exists r. split; [exact Hr|].
      destruct (pymax64 L (map (back64 t g) (sources ts))) as (m2 & qm & Em2 & Hm & Hin & Hall).
      { destruct (sources ts); [destruct Hs|discriminate]. } { intros y Hy. apply in_map_iff in Hy. destruct Hy as (z & <- & Hz). destruct (Fin1 z Hz) as (q & Hq & _). eauto. }
      assert (m2 = m) by congruence. subst m2. pose proof (Hall _ q0 (in_map _ _ _ Hs0) Hq0) as Lm.
      assert (Um : qm <= bpow radix2 259) by (apply in_map_iff in Hin; destruct Hin as (z & <- & Hz); destruct (Fin1 z Hz) as (q & Hq & Hq'); rewrite (isf_fun _ _ _ Hm Hq); tauto).
      destruct (div_up64 _ _ r qm 259 (-326) Hr Hm Hr' ltac:(lra) ltac:(lia)) as (A & _). rewrite (proj2 A) in Hl.
      destruct (Rle_dec (bpow radix2 (-427)) r) as [G|G]; [exact G|]. exfalso.
      assert (D : r / qm <= bpow radix2 (-101)).
      { apply (Rmult_le_reg_r qm); [lra|]. unfold Rdiv. rewrite Rmult_assoc, Rinv_l, Rmult_1_r by lra. apply Rle_trans with (bpow radix2 (-427)); [lra|]. change (-427)%Z with (-101 + -326)%Z. rewrite bpow_plus. apply Rmult_le_compat_l; [apply bpow_ge_0|lra]. }
      apply (rnd_up (-101)) in D; [|lia]. assert (bpow radix2 (-101) < bpow radix2 (-100)) by (apply bpow_lt; lia). lra.
    Qed.
    Lemma inv_round64 : exists t' g', normalised ts t' g' /\ (forall s, In s (sources ts) -> not_tiny (t' s) -> within (bpow radix2 (-100)) 1 (t' s)) /\
      round (F:=F) (Investment gm) d (map t (sources ts), map g (claims ts)) = UNext (F:=F) (map t' (sources ts)) (map t (sources ts)) (map t' (sources ts), map g' (claims ts)).
    Proof.
      destruct rd_some as (NE & _ & Rs). destruct rd_trust as (m & Em & T1 & T2 & _).
      destruct (by_max64 L (ret64 t g) (claims ts) (bpow radix2 800) (cl_ne ts NE)) as (m' & Em' & _ & B1 & B2); [intros c Hc; destruct (rd_ret c Hc) as (r & Hr & Hr' & _); exists r; auto|exact Rs|].
      exists (fun s => Bdiv mode_NE (back64 t g s) m), (fun c => Bdiv mode_NE (ret64 t g c) m'). split; [repeat split; assumption|]. split.
      - intros s Hs [_ Hl]. destruct (T1 s Hs) as (q & Hq & Hq'). exists q. split; [exact Hq|]. rewrite <- (proj2 Hq) in *. lra.
      - cbn [round]. unfold inv_upd. rewrite rd_update, iv_vec, (scT64 L b f ts d Hb). change (map (tt64 ts (iv64 (back64 t g))) (claims ts)) with (map (base64 t g) (claims ts)). rewrite map_map.
        change (map (fun x : V * W => n_pow (n:=F) (base64 t g x) gm) (claims ts)) with (map (ret64 t g) (claims ts)). rewrite Em, Em'. unfold vdivs. rewrite !map_map. reflexivity.
    Qed.
    (** with pooling: if the trusts that result are not tiny, the beliefs are numbers *)
    Lemma pooled_round64 : exists t' nb, ((forall s, In s (sources ts) -> not_tiny (t' s)) -> exists g', nb = map g' (claims ts) /\ normalised ts t' g') /\
      (forall s, In s (sources ts) -> not_tiny (t' s) -> within (bpow radix2 (-100)) 1 (t' s)) /\
      round (F:=F) (PooledInvestment gm) d (map t (sources ts), map g (claims ts)) = UNext (F:=F) (map t' (sources ts)) (map t (sources ts)) (map t' (sources ts), nb).
    Proof.
      destruct rd_some as (NE & _ & Rs). destruct rd_trust as (m & Em & T1 & T2 & T3).
      assert (Cn : map (pool64 t g) (claims ts) <> []) by (pose proof (cl_ne ts NE); destruct (claims ts); [congruence|discriminate]).
      destruct (pymax (F:=F) (map (pool64 t g) (claims ts))) as [m'|] eqn:Em'; [|destruct (map (pool64 t g) (claims ts)); [congruence|discriminate]].
      exists (fun s => Bdiv mode_NE (back64 t g s) m), (map (fun c => Bdiv mode_NE (pool64 t g c) m') (claims ts)). split; [|split].
      - intros NT. exists (fun c => Bdiv mode_NE (pool64 t g c) m'). split; [reflexivity|].
        assert (Bk : forall s, In s (sources ts) -> exists q, isf (back64 t g s) q /\ bpow radix2 (-427) <= q) by (intros s Hs; apply (T3 s Hs), NT, Hs).
        assert (Bs : forall c, In c (claims ts) -> exists q, isf (base64 t g c) q /\ bpow radix2 (-480) <= q <= bpow radix2 312).
        { intros c Hc. destruct (supporters_ne ts c Hc) as [s Hs]. destruct (Bk s (supp_src c s Hs)) as (q & Hq & Hl). destruct (rd_base c Hc) as (r & Hr & Hr' & Lr). specialize (Lr s q Hs Hq Hl). exists r. split; [exact Hr|lra]. }
        assert (Rt : forall c, In c (claims ts) -> exists q, isf (ret64 t g c) q /\ bpow radix2 (-1000) <= q <= bpow radix2 800).
        { intros c Hc. destruct (Bs c Hc) as (q & Hq & Hl). destruct (rd_ret c Hc) as (r & Hr & Hr' & Lr). specialize (Lr q Hq ltac:(lra)). exists r. split; [exact Hr|lra]. }
        pose proof (bpow_gt_0 radix2 (-1000)) as PP. pose proof (bpow_gt_0 radix2 (-480)) as PB.
        assert (RivC : forall c c', In c' (rivals ts c) -> In c' (claims ts)) by (intros c c' Hc; unfold rivals in Hc; apply filter_In in Hc; tauto).
        assert (Sm : forall c, In c (claims ts) -> exists r, isf (tr64 ts (ret64 t g) c) r /\ (forall c' q, In c' (rivals ts c) -> isf (ret64 t g c') q -> q <= r) /\
                      (forall q, isf (ret64 t g c) q -> (forall c' q', In c' (rivals ts c) -> isf (ret64 t g c') q' -> q' <= q) -> r <= q * bpow radix2 54)).
        { intros c Hc. assert (Fw : (Z.of_nat (length (rivals ts c)) <= cap)%Z) by (now apply few_of).
          destruct (argmax64 (ret64 t g) (rivals ts c)) as (x0 & q0 & Hx0 & Hq0 & Mx).
          { intros E. pose proof (rivals_self ts c Hc) as G. rewrite E in G. destruct G. } { intros x Hx. destruct (Rt x (RivC c x Hx)) as (q & Hq & _). eauto. }
          destruct (Rt x0 (RivC c x0 Hx0)) as (q1 & Hq1 & Rq1). rewrite (isf_fun _ _ _ Hq1 Hq0) in Rq1.
          destruct (sum_by_max64 (ret64 t g) (rivals ts c) x0 q0 Fw Hx0 Hq0) as (r & Hr & Hr'); [lra| |].
          { intros x Hx. destruct (Rt x (RivC c x Hx)) as (q & Hq & Hq'). exists q. split; [exact Hq|]. pose proof (Mx x q Hx Hq). lra. }
          exists r. split; [exact Hr|]. split; [intros c' q Hc' Hq; pose proof (Mx c' q Hc' Hq); lra|]. intros q Hq Mq. pose proof (Mq x0 q0 Hx0 Hq0). pose proof (bpow_gt_0 radix2 54). eapply Rle_trans; [apply Hr'|]. apply Rmult_le_compat_r; lra. }
        assert (Pl : forall c, In c (claims ts) -> exists r, isf (pool64 t g c) r /\ 0 <= r <= bpow radix2 312 /\
                      ((forall c' q q', In c' (rivals ts c) -> isf (ret64 t g c') q' -> isf (ret64 t g c) q -> q' <= q) -> 0 < r)).
        { intros c Hc. destruct (Bs c Hc) as (x & Hx & Rx). destruct (Rt c Hc) as (y & Hy & Ry). destruct (Sm c Hc) as (z & Hz & Uz & Lz). pose proof (Uz c y (rivals_self ts c Hc) Hy) as Lyz.
          destruct (div_max64 _ _ y z Hy Hz ltac:(lra) ltac:(lra)) as (u & Hu & Ru & _). destruct (mul_up64 _ _ x u 312 0 Hx Hu) as (A & B); [lra|rewrite bp0; lra|lia|].
          exists (rnd (x * u)). split; [exact A|]. split; [exact B|]. intros Mx. specialize (Lz y Hy (fun c' q' H1 H2 => Mx c' y q' H1 H2 Hy)).
          assert (Lu : bpow radix2 (-54) <= u).
          { assert (Q : bpow radix2 (-54) <= y / z).
            { apply (Rmult_le_reg_r z); [lra|]. unfold Rdiv. rewrite Rmult_assoc, Rinv_l, Rmult_1_r by lra. apply Rle_trans with (bpow radix2 (-54) * (y * bpow radix2 54)); [apply Rmult_le_compat_l; [apply bpow_ge_0|exact Lz]|].
              right. rewrite (Rmult_comm y), <- Rmult_assoc, <- bpow_plus. change (bpow radix2 (-54 + 54)) with 1. lra. }
            destruct (div64 _ _ y z 1 Hy Hz ltac:(lra) ltac:(pose proof (bpow_gt_0 radix2 (-54)); lra) fmt_1) as (K1 & K2).
            - apply (Rmult_le_reg_r z); [lra|]. unfold Rdiv. rewrite Rmult_assoc, Rinv_l; lra.
            - rewrite <- bp0. apply bpow_lt. lia.
            - rewrite <- (proj2 Hu), K2. apply rnd_low; [lia|exact Q]. }
          pose proof (mul_low x u (-480) (-54) ltac:(tauto) Lu ltac:(lia)). pose proof (bpow_gt_0 radix2 (-480 + -54)). lra. }
        assert (Some1 : exists c q, In c (claims ts) /\ isf (pool64 t g c) q /\ 0 < q).
        { destruct Rs as (c & _ & Hc & _). destruct (argmax64 (ret64 t g) (rivals ts c)) as (x0 & q0 & Hx0 & Hq0 & Mx).
          { intros E. pose proof (rivals_self ts c Hc) as G. rewrite E in G. destruct G. } { intros x Hx. destruct (Rt x (RivC c x Hx)) as (q & Hq & _). eauto. }
          destruct (Pl x0 (RivC c x0 Hx0)) as (r & Hr & _ & Pr). exists x0, r. split; [exact (RivC c x0 Hx0)|]. split; [exact Hr|]. apply Pr. intros c' q q' Hc' Hq' Hq.
          rewrite (isf_fun _ _ _ Hq Hq0). apply (Mx c'); [|exact Hq']. unfold rivals in *. apply filter_In in Hx0, Hc'. apply filter_In. split; [tauto|]. destruct Hx0 as (_ & E1), Hc' as (_ & E2). apply (beq_true (fst c) (fst x0)) in E1. apply (beq_true (fst x0) (fst c')) in E2. apply (beq_true (fst c) (fst c')). congruence. }
        destruct (by_max64 L (pool64 t g) (claims ts) (bpow radix2 312) (cl_ne ts NE)) as (m2 & Em2 & _ & B1 & B2); [intros c Hc; destruct (Pl c Hc) as (r & Hr & Hr' & _); exists r; auto|exact Some1|].
        assert (m2 = m') by congruence. subst m2. repeat split; assumption.
      - intros s Hs [_ Hl]. destruct (T1 s Hs) as (q & Hq & Hq'). exists q. split; [exact Hq|]. rewrite <- (proj2 Hq) in *. lra.
      - cbn [round]. unfold pooled_upd. rewrite rd_update, iv_vec, (scT64 L b f ts d Hb). change (map (tt64 ts (iv64 (back64 t g))) (claims ts)) with (map (base64 t g) (claims ts)). rewrite map_map.
        change (map (fun x : V * W => n_pow (n:=F) (base64 t g x) gm) (claims ts)) with (map (ret64 t g) (claims ts)). rewrite (mut64 L b f ts d Hb).
        assert (Ep : vmul (F:=F) (map (base64 t g) (claims ts)) (vdiv (F:=F) (map (ret64 t g) (claims ts)) (map (tr64 ts (ret64 t g)) (claims ts))) = map (pool64 t g) (claims ts)).
        { unfold vmul, vdiv. assert (E1 : zipw (@n_div F) (map (ret64 t g) (claims ts)) (map (tr64 ts (ret64 t g)) (claims ts)) = map (fun c => Bdiv mode_NE (ret64 t g c) (tr64 ts (ret64 t g) c)) (claims ts)) by apply (zipw_map2 (@n_div F)). rewrite E1. apply (zipw_map2 (@n_mul F)). }
        rewrite Ep, Em, Em'. unfold vdivs. rewrite !map_map. reflexivity.
    Qed.
  End Round.

  Definition an_investment (a : alg F) : Prop := a = Investment gm \/ a = PooledInvestment gm.
  Lemma round_any a t g : an_investment a -> (forall s, In s (sources ts) -> within (bpow radix2 (-100)) 1 (t s)) -> (forall c, In c (claims ts) -> within 0 (bpow radix2 53) (g c)) ->
    (exists c q, In c (claims ts) /\ isf (g c) q /\ bpow radix2 (-120) <= q) ->
    exists t' nb, ((forall s, In s (sources ts) -> not_tiny (t' s)) -> exists g', nb = map g' (claims ts) /\ normalised ts t' g') /\
      (forall s, In s (sources ts) -> not_tiny (t' s) -> within (bpow radix2 (-100)) 1 (t' s)) /\
      round (F:=F) a d (map t (sources ts), map g (claims ts)) = UNext (F:=F) (map t' (sources ts)) (map t (sources ts)) (map t' (sources ts), nb).
  Proof.
    intros [->| ->] Ht Hg Hc0.
    - destruct (inv_round64 t g Ht Hg Hc0) as (t' & g' & H1 & H2 & H3). exists t', (map g' (claims ts)). split; [eauto|]. split; [exact H2|exact H3].
    - exact (pooled_round64 t g Ht Hg Hc0).
  Qed.
  Lemma nth_map_pos (t : S -> b64) s : In s (sources ts) -> nth (pos s (sources ts)) (map t (sources ts)) (ofZ64 0) = t s.
  Proof. intros Hs. apply nth_error_nth. rewrite nth_error_map. now rewrite (nth_error_pos _ _ Hs). Qed.
  Lemma inv_scores64 a p x0 : an_investment a -> init (F:=F) a p d = Some x0 -> ts <> [] -> forall k, (forall j s, (j <= k)%nat -> In s (sources ts) -> not_tiny (nth (pos s (sources ts)) (fst (scores (F:=F) a d x0 j)) (ofZ64 0))) ->
    exists t g, scores (F:=F) a d x0 k = (map t (sources ts), map g (claims ts)) /\ (forall s, In s (sources ts) -> within (bpow radix2 (-100)) 1 (t s)) /\
      (forall c, In c (claims ts) -> within 0 (bpow radix2 53) (g c)) /\ (exists c q, In c (claims ts) /\ isf (g c) q /\ bpow radix2 (-120) <= q) /\ (k <> 0%nat -> normalised ts t g).
  Proof.
    intros Ha E0 NE.
    assert (E1 : exists bel, prior_beliefs (F:=F) p d = Some bel /\ x0 = (vones (F:=F) (num_sources d), bel)).
    { destruct Ha as [->| ->]; cbn [init] in E0; destruct (prior_beliefs p d) as [bel|]; try discriminate; exists bel; injection E0 as <-; auto. }
    destruct E1 as (bel & Ep & Ex0). destruct (prior_low L b f ts d Hb Small_s Small_c p bel Ep) as (g0 & Eg0 & Hg0).
    induction k as [|k IH]; intros NT.
    - exists (fun _ => ofZ64 1), g0. cbn [scores]. split; [rewrite Ex0, Eg0; f_equal; rewrite (rep_ns _ _ _ R0); apply (ones64 L)|]. split; [|split; [|split; [|congruence]]].
      + intros s _. exists 1. split; [exact one64|]. split; [rewrite <- bp0; apply bpow_le; lia|lra].
      + intros c Hc. destruct (Hg0 c Hc) as (r & Hr & Hr'). exists r. split; [exact Hr|]. pose proof (bpow_gt_0 radix2 (-120)). lra.
      + destruct (claims ts) as [|c l] eqn:Ec; [exfalso; now apply (cl_ne ts NE)|]. destruct (Hg0 c (or_introl eq_refl)) as (r & Hr & Hr'). exists c, r. split; [now left|]. split; [exact Hr|tauto].
    - destruct IH as (t & g & E & Ht & Hg & Hc0 & _); [intros j v Hj; apply NT; lia|].
      destruct (round_any a t g Ha Ht Hg Hc0) as (t' & nb & H1 & H2 & H3).
      assert (Er2 : round (F:=F) a d (scores (F:=F) a d x0 k) = UNext (F:=F) (map t' (sources ts)) (map t (sources ts)) (map t' (sources ts), nb)) by (rewrite E; exact H3).
      assert (Es : scores (F:=F) a d x0 (Datatypes.S k) = (map t' (sources ts), nb)) by (cbn [scores]; rewrite Er2; reflexivity).
      assert (NT' : forall s, In s (sources ts) -> not_tiny (t' s)) by (intros s Hs; pose proof (NT (Datatypes.S k) s (le_n _) Hs) as Q; rewrite Es in Q; rewrite <- (nth_map_pos t' s Hs); exact Q).
      destruct (H1 NT') as (g' & -> & Nm). exists t', g'. split; [exact Es|]. split; [intros s Hs; apply H2; auto|]. destruct Nm as (N1 & N2 & N3 & N4). split; [|split].
      + intros c Hc. destruct (N2 c Hc) as (q & Hq & Hq'). exists q. split; [exact Hq|]. assert (1 <= bpow radix2 53) by (rewrite <- bp0; apply bpow_le; lia). lra.
      + destruct N4 as (c & Hc & Ec). exists c, 1. split; [exact Hc|]. rewrite Ec. split; [exact one64|]. rewrite <- bp0. apply bpow_le. lia.
      + intros _. repeat split; assumption.
  Qed.

  (** no trust score of the result is NaN, infinite or below 2^-100 *)
  Definition trusts_not_tiny (r : result) : Prop := forall s v, trust_of r s = Some v -> not_tiny v.
  Lemma logged_trust (r : result) (t : list b64) s : r_trust r = tdict (F:=F) ts t -> In s (sources ts) -> trusts_not_tiny r -> not_tiny (nth (pos s (sources ts)) t (ofZ64 0)).
  Proof.
    intros E Hs H. apply (H s). unfold trust_of. rewrite E. unfold tdict. apply (In_dget).
    - unfold dkeys. rewrite map_map. cbn [fst]. rewrite map_id. apply distinct_NoDup.
    - apply in_map_iff. exists s. split; [reflexivity|exact Hs].
  Qed.
  (** Investment and PooledInvestment: every partial result after the first is normal as long as no trust up to there is below 2^-100 *)
  Theorem C95_invest_float_partial_results clock fuel a p it lg l o' j r : an_investment a ->
    run_iter (F:=F) clock fuel (AObj a p it lg) d = (Ok l, o') -> nth_error l j = Some r -> j <> 0%nat ->
    (forall i r', (i <= j)%nat -> nth_error l i = Some r' -> trusts_not_tiny r') -> scores_normal r.
  Proof.
    intros Ha H Hj Hj0 NT. destruct (list_eq_dec (fun t t' => eq_dec_of t t') ts []) as [Ets|NE].
    { unfold run_iter in H. assert (Hz : num_claims d = 0%nat) by (rewrite (rep_nc _ _ _ R0), Ets; reflexivity). rewrite Hz in H. discriminate. }
    rewrite (run_iter_char clock ts f d R0 NE) in H. destruct (init (F:=F) a p d) as [x0|] eqn:E0; [|discriminate].
    destruct (it_loop _ _ _ fuel (reset it) 0) as [[q k] it'] eqn:El. destruct q as [[]|e]; [|discriminate].
    assert (Lg : logs_initial (F:=F) a = true) by (destruct Ha as [->| ->]; reflexivity).
    assert (Hl : l = partial_results (F:=F) clock ts d a x0 k) by (destruct Ha as [->| ->]; cbn [final] in H; injection H as <- _; reflexivity). clear H. subst l.
    assert (Nth : forall i, (i <= k)%nat -> nth_error (partial_results (F:=F) clock ts d a x0 k) i = Some (partial_result (F:=F) clock ts d a x0 (1 + i) i)).
    { intros i Hi. unfold partial_results, initial_log. rewrite Lg. cbn [app length]. destruct i as [|i]; [reflexivity|]. cbn [nth_error]. rewrite nth_error_map. rewrite (nth_error_nth' (seq 1 k) 0%nat) by (rewrite seq_length; lia). rewrite seq_nth by lia. reflexivity. }
    assert (Hk : (j <= k)%nat).
    { assert (G : nth_error (partial_results (F:=F) clock ts d a x0 k) j <> None) by (rewrite Hj; discriminate). apply nth_error_Some in G. unfold partial_results, initial_log in G. rewrite Lg in G. rewrite app_length, map_length, seq_length in G. cbn in G. lia. }
    rewrite (Nth j Hk) in Hj. injection Hj as <-.
    destruct (inv_scores64 a p x0 Ha E0 NE j) as (t & g & E & _ & _ & _ & N).
    { intros i s Hi Hs. apply (logged_trust (partial_result (F:=F) clock ts d a x0 (1 + i) i)); [reflexivity|exact Hs|]. apply (NT i); [exact Hi|]. apply Nth. lia. }
    apply (normal_intro ts _ t g); [|exact (N Hj0)].
    apply (reports64 L); [exact (f_equal (fun y => tdict (F:=F) ts (fst y)) E)|exact (f_equal (fun y => bdict (F:=F) ts (snd y)) E)].
  Qed.
  (** the result of run *)
  Theorem C95_invest_float clock clock' fuel a p it lg lg' r o' o2 l k : an_investment a ->
    run (F:=F) clock fuel (AObj a p it lg) d = (Ok r, o') -> r_iterations r = Some k -> k <> 0%nat ->
    run_iter (F:=F) clock' fuel (AObj a p it lg') d = (Ok l, o2) -> (forall r', In r' l -> trusts_not_tiny r') -> scores_normal r.
  Proof.
    intros Ha H Hk Hk0 HI NT. apply (run_cases b f ts d Hb) in H. destruct H as (NE & x0 & k' & it' & E0 & El & x & Ef & ->).
    cbn in Hk. injection Hk as ->. rewrite (run_iter_char clock' ts f d R0 NE), E0, El in HI.
    assert (Lg : logs_initial (F:=F) a = true) by (destruct Ha as [->| ->]; reflexivity).
    assert (Hl : l = partial_results (F:=F) clock' ts d a x0 k) by (destruct Ha as [->| ->]; cbn [final] in HI; injection HI as <- _; reflexivity). clear HI. subst l.
    destruct (inv_scores64 a p x0 Ha E0 NE k) as (t & g & E & _ & _ & _ & N).
    { intros i s Hi Hs. apply (logged_trust (partial_result (F:=F) clock' ts d a x0 (1 + i) i)); [reflexivity|exact Hs|]. apply NT.
      unfold partial_results, initial_log. rewrite Lg. cbn [app length]. destruct i as [|i]; [now left|]. right. apply in_map_iff. exists (Datatypes.S i). split; [reflexivity|]. apply in_seq. lia. }
    apply (final_ok (F:=F) a it' _ x) in Ef; [|destruct Ha as [->| ->]; discriminate]. rewrite E in Ef. subst x. cbn [fst snd].
    apply (normal_intro ts _ t g); [|exact (N Hk0)]. apply (reports64 L); reflexivity.
  Qed.
End C95.
