(** C85: the shock locator (src/post_shock_locator.hpp).  C86: the time series of the explosion program. *)
From Coq Require Import ZArith Reals List Bool Lia Lra Sorted.
From Verif Require Import Base NdModel NdSpec NdProofs NdProofs2 NdOpsModel NdOpsProofs DimensionalModel HydroModel SedovModel Rep1Proofs SedovProofs SedovProps ShockModel ReduceProofs ReduceProps.
Import ListNotations.
Open Scope Z_scope.

(** *** C85 *)
(** The first of the steepest drops: the entropies of cells i and i+1. *)
Theorem drop_found fuel s0 n S : 2 <= n <= 2147483647 -> (Z.to_nat n <= fuel)%nat -> rep1 s0 n S ->
  exists i, find_drop_index fuel s0 = Ok [i] /\ 0 <= i < n - 1 /\
    (forall j, 0 <= j < n - 1 -> (S (i + 1)%Z - S i <= S (j + 1)%Z - S j)%R) /\ (forall j, 0 <= j < i -> (S (i + 1)%Z - S i < S (j + 1)%Z - S j)%R).
Proof.
  intros Hn Hf HS. unfold find_drop_index. destruct (difference1 Rminus s0 n S ltac:(unfold two64; lia) HS) as (ds & E1 & [D1 D2]). rewrite E1. bsimp.
  assert (IT : at_most fuel (ashape ds)). { rewrite D1. split; [discriminate|]. split; [repeat constructor; unfold two64; lia|]. cbn [prodz fold_right]. rewrite Z.mul_1_r. lia. }
  set (D := fun k => (S (1 + k)%Z - S k)%R) in *. assert (HD : holds ds (fun i => D (hd 0 i))).
  { intros i Hi. rewrite D1 in Hi. inversion Hi as [|d x s i' Hx Hr E2 E3]; subst. inversion Hr; subst. cbn [hd]. apply D2. lia. }
  destruct (min_correct fuel ds _ IT HD) as (im & M1 & M2 & M3). rewrite M2. bsimp. set (m := D (hd 0 im)) in *.
  assert (HW : holds (arr_map (fun x => same x m) ds) (fun i => same (D (hd 0 i)) m)). { intros i Hi. cbn [arr_map aget ashape] in *. rewrite HD by exact Hi. reflexivity. }
  destruct (where_correct fuel (arr_map (fun x => same x m) ds) _ IT ltac:(cbn [arr_map ashape]; rewrite D1; cbn [prodz fold_right]; lia) HW) as (w & l & W1 & W2 & W3 & W4 & W5). rewrite W1. bsimp. cbn [arr_map ashape] in *.
  assert (SM : forall x, same x m = true <-> x = m) by (intros x; unfold same; destruct (Req_EM_T x m); split; congruence).
  assert (IM : In im l) by (apply W4; split; [exact M1|apply SM; reflexivity]).
  destruct l as [|i0 l]; [destruct IM|]. pose proof (proj1 (W4 i0) (or_introl eq_refl)) as [I1 I2]. apply SM in I2. pose proof (W3 0%nat ltac:(cbn; lia)) as W0. cbn [nth Z.of_nat] in W0. rewrite W0.
  rewrite D1 in I1. inversion I1 as [|d x s i' Hx Hr E2 E3]; subst i0. inversion Hr; subst. exists x. split; [reflexivity|]. split; [lia|]. cbn [hd] in I2.
  assert (MI : forall j, 0 <= j < n - 1 -> (m <= D j)%R). { intros j Hj. apply (M3 [j]). rewrite D1. constructor; [lia|constructor]. }
  assert (DE : forall j, (S (j + 1)%Z - S j)%R = D j) by (intros j; unfold D; rewrite Z.add_comm; reflexivity). split.
  - intros j Hj. rewrite !DE, I2. apply MI, Hj.
  - intros j Hj. rewrite !DE, I2. destruct (Rle_lt_or_eq_dec _ _ (MI j ltac:(lia))) as [L|EQ]; [exact L|]. exfalso.
    assert (IJ : In [j] ([x] :: l)) by (apply W4; split; [rewrite D1; constructor; [lia|constructor]|apply SM; cbn [hd]; congruence]).
    destruct IJ as [EJ|IJ]; [injection EJ; lia|]. apply StronglySorted_inv in W5 as [_ W5]. rewrite Forall_forall in W5. specialize (W5 _ IJ). rewrite D1 in W5. cbn in W5. lia.
Qed.
Theorem shock_found fuel g p n P : 2 <= n <= 2147483647 -> (Z.to_nat n <= fuel)%nat -> rep1 p n P ->
  let s k := (ln (pre (P k) / Rpower (rho (P k)) g))%R in
  exists i, find_shock_index fuel g p = Ok [i] /\ 0 <= i < n - 1 /\
    (forall j, 0 <= j < n - 1 -> (s (i + 1)%Z - s i <= s (j + 1)%Z - s j)%R) /\ (forall j, 0 <= j < i -> (s (i + 1)%Z - s i < s (j + 1)%Z - s j)%R).
Proof. intros Hn Hf HP s. apply (drop_found fuel _ n s Hn Hf). apply (map1 (specific_entropy g) p n P HP). Qed.

Lemma checked {A} (a : array A) n F k : rep1 a n F -> 0 <= n < two64 -> 0 <= k < two64 -> aget (bounds_check a) [k] = if k <? n then Ok (F k) else Throw OutOfRange.
Proof.
  intros [E1 E2] Hn Hk. unfold bounds_check. cbn [aget]. rewrite E1. cbn [shape_contains]. destruct (Z.leb_spec n k), (Z.ltb_spec k n); try lia; [reflexivity|]. apply E2. lia.
Qed.
(** Scanning back from a cell of the array: the values rise strictly up to the result, and the scan stops at a cell that is
    not below its neighbour, or at the innermost cell. *)
Theorem maximum_behind fuel a n Y index : 1 <= n < two64 -> 0 <= index < n -> (Z.to_nat index < fuel)%nat -> rep1 a n Y ->
  exists r, find_index_of_maximum_behind fuel a index = Ok r /\ 0 <= r <= index /\ (forall k, r < k <= index -> (Y k < Y (k - 1)%Z)%R) /\ (r = 0 \/ (Y (r - 1)%Z <= Y r)%R).
Proof.
  intros Hn. revert index. induction fuel as [|f IH]; intros index Hi Hf HY; [lia|]. unfold find_index_of_maximum_behind in *. cbn [scan_behind].
  rewrite (checked a n Y (w64 (index - 1)) HY ltac:(lia) ltac:(unfold w64; apply Z.mod_pos_bound; reflexivity)).
  destruct (Z.eq_dec index 0) as [->|N].
  - assert (EW : w64 (0 - 1) = two64 - 1) by reflexivity. rewrite EW. destruct (Z.ltb_spec (two64 - 1) n); [lia|]. cbn [bind catch_zero]. exists 0. split; [reflexivity|]. split; [lia|]. split; [intros; lia|left; reflexivity].
  - rewrite !w64_small by lia. destruct (Z.ltb_spec (index - 1) n); [|lia]. bsimp. rewrite (checked a n Y index HY) by lia. destruct (Z.ltb_spec index n); [|lia]. bsimp.
    destruct (less (Y index) (Y (index - 1))) eqn:EL.
    + apply less_true in EL. destruct (IH (index - 1) ltac:(lia) ltac:(lia) HY) as (r & E & R1 & R2 & R3). exists r. split; [exact E|]. split; [lia|]. split; [|exact R3].
      intros k Hk. destruct (Z.eq_dec k index) as [->|]; [exact EL|]. apply R2. lia.
    + apply less_false in EL. exists index. cbn [catch_zero]. split; [reflexivity|]. split; [lia|]. split; [intros; lia|right; exact EL].
Qed.
Theorem maximum_pressure_behind fuel p n P index : 1 <= n < two64 -> 0 <= index < n -> (Z.to_nat index < fuel)%nat -> rep1 p n P ->
  exists r, find_index_of_maximum_pressure_behind fuel p index = Ok r /\ 0 <= r <= index /\ (forall k, r < k <= index -> (pre (P k) < pre (P (k - 1)%Z))%R) /\ (r = 0 \/ (pre (P (r - 1)%Z) <= pre (P r))%R).
Proof. intros Hn Hi Hf HP. apply (maximum_behind fuel _ n (fun k => pre (P k)) index Hn Hi Hf). apply (map1 pre p n P HP). Qed.

(** Scanning ahead: with the slopes d k = log p(k+1) - log p(k), the first r >= index with d (r-1) >= d (r-2) / 2, if
    there is one inside the array; zero if there is none or if index < 2. *)
Lemma scan_ahead_spec f a m D : 0 <= m < two64 - 1 -> rep1 a m D -> forall index, 2 <= index <= m + 1 -> (Z.to_nat (m + 1 - index) < f)%nat ->
  exists r, catch_zero (scan_ahead f (bounds_check a) index) = Ok r /\
    ((index <= r <= m /\ (forall k, index <= k < r -> (D (k - 1)%Z < D (k - 2)%Z / 2)%R) /\ (D (r - 2)%Z / 2 <= D (r - 1)%Z)%R) \/
     (r = 0 /\ forall k, index <= k <= m -> (D (k - 1)%Z < D (k - 2)%Z / 2)%R)).
Proof.
  intros Hm HD. induction f as [|f IH]; intros index Hi Hf; [lia|]. cbn [scan_ahead]. rewrite !w64_small by lia. rewrite (checked a m D (index - 1) HD) by lia.
  destruct (Z.ltb_spec (index - 1) m).
  - bsimp. rewrite (checked a m D (index - 2) HD) by lia. destruct (Z.ltb_spec (index - 2) m); [|lia]. bsimp. destruct (less (D (index - 1)) (1 / 2 * D (index - 2)%Z)) eqn:EL.
    + apply less_true in EL. rewrite w64_small by lia. destruct (IH (index + 1) ltac:(lia) ltac:(lia)) as (r & E & [(R1 & R2 & R3)|(R1 & R2)]); exists r; (split; [exact E|]).
      * left. split; [lia|]. split; [|exact R3]. intros k Hk. destruct (Z.eq_dec k index) as [->|]; [lra|]. apply R2. lia.
      * right. split; [exact R1|]. intros k Hk. destruct (Z.eq_dec k index) as [->|]; [lra|]. apply R2. lia.
    + apply less_false in EL. exists index. cbn [catch_zero]. split; [reflexivity|]. left. split; [lia|]. split; [intros; lia|]. lra.
  - cbn [bind catch_zero]. exists 0. split; [reflexivity|]. right. split; [reflexivity|]. intros k Hk. lia.
Qed.
Theorem plateau_ahead fuel p n P index : 1 <= n < two64 -> 0 <= index <= n -> (Z.to_nat n < fuel)%nat -> rep1 p n P ->
  let d k := (ln (pre (P (k + 1)%Z)) - ln (pre (P k)))%R in
  exists r, find_index_of_pressure_plateau_ahead fuel p index = Ok r /\
    ((2 <= index /\ index <= r < n /\ (forall k, index <= k < r -> (d (k - 1)%Z < d (k - 2)%Z / 2)%R) /\ (d (r - 2)%Z / 2 <= d (r - 1)%Z)%R) \/
     (r = 0 /\ (index < 2 \/ forall k, index <= k < n -> (d (k - 1)%Z < d (k - 2)%Z / 2)%R))).
Proof.
  intros Hn Hi Hf HP d. unfold find_index_of_pressure_plateau_ahead.
  destruct (difference1 Rminus _ n _ ltac:(lia) (map1 ln _ n _ (map1 pre p n P HP))) as (a & E & HD). rewrite E. bsimp.
  assert (HD' : rep1 a (n - 1) d) by (apply (rep1_ext _ _ _ _ HD); intros k Hk; unfold d; rewrite Z.add_comm; reflexivity).
  destruct (Z_lt_dec index 2) as [L|L].
  - exists 0. split; [|right; split; [reflexivity|left; exact L]]. destruct fuel as [|f]; [lia|]. cbn [scan_ahead].
    assert (B : forall z, 0 <= w64 z < two64) by (intros z; unfold w64; apply Z.mod_pos_bound; reflexivity).
    rewrite !(checked a (n - 1) d _ HD') by (try apply B; lia). destruct (w64 (index - 1) <? n - 1); cbn [bind]; [|reflexivity].
    assert (W : w64 (index - 2) = two64 + (index - 2)). { assert (index = 0 \/ index = 1) as [->| ->] by lia; reflexivity. }
    destruct (Z.ltb_spec (w64 (index - 2)) (n - 1)); [lia|]. reflexivity.
  - destruct (scan_ahead_spec fuel a (n - 1) d ltac:(lia) HD' index ltac:(lia) ltac:(lia)) as (r & ER & [(R1 & R2 & R3)|(R1 & R2)]); exists r; (split; [exact ER|]).
    + left. split; [lia|]. split; [lia|]. split; assumption.
    + right. split; [exact R1|]. right. intros k Hk. apply R2. lia.
Qed.
(** So the "index greater than the one given" may be 0: a pressure that falls off ever more gently has no plateau. *)
Theorem plateau_ahead_refuted : exists p P, rep1 p 5 P /\ (forall k, 0 <= k < 5 -> (0 < pre (P k))%R) /\ find_index_of_pressure_plateau_ahead 6 p 2 = Ok 0.
Proof.
  set (P := fun k => Prim 1 0 0 0 (exp (- (IZR (2 ^ k))))). exists (vector 5 P), P. split; [apply vector_rep|]. split; [intros; apply exp_pos|].
  destruct (plateau_ahead 6 (vector 5 P) 5 P 2 ltac:(unfold two64; lia) ltac:(lia) ltac:(lia) (vector_rep 5 P)) as (r & E & [(_ & R1 & _ & R3)|(-> & _)]); [|exact E]. exfalso.
  unfold P in R3. cbn [pre] in R3. rewrite !ln_exp in R3. assert (r = 2 \/ r = 3 \/ r = 4) as [-> |[-> | ->]] by lia; cbn in R3; lra.
Qed.

(** *** C86 *)
(** The velocity solves the jump condition for the mass, whenever the densities differ. *)
Theorem shock_velocity_newtonian p1 p2 s : rho p1 <> rho p2 -> (euler_shock_velocity p1 p2 = Some s <-> (rho p1 * (u1 p1 - s) = rho p2 * (u1 p2 - s))%R).
Proof.
  intros N. unfold euler_shock_velocity. destruct (Req_EM_T (rho p2 - rho p1) 0) as [E|E]; [lra|]. split.
  - intros H. injection H as <-. field. exact E.
  - intros H. f_equal. apply (Rmult_eq_reg_r (rho p2 - rho p1)); [|exact E]. unfold Rdiv. rewrite Rmult_assoc, Rinv_l by exact E. lra.
Qed.
Theorem shock_velocity_relativistic p1 p2 s : let D p := (rho p * lorentz_factor p)%R in let v p := (u1 p / lorentz_factor p)%R in
  D p1 <> D p2 -> (srhd_shock_velocity p1 p2 = Some s <-> (D p1 * (v p1 - s) = D p2 * (v p2 - s))%R).
Proof.
  intros D v N. unfold srhd_shock_velocity. cbv zeta. fold (D p1). fold (D p2).
  assert (L : forall p, (0 < lorentz_factor p)%R) by (intros p; unfold lorentz_factor, gamma_beta_squared; apply sqrt_lt_R0; nra).
  assert (F : forall p, (rho p * u1 p = D p * v p)%R) by (intros p; unfold D, v; specialize (L p); field; lra). rewrite !F.
  destruct (Req_EM_T (D p2 - D p1) 0) as [E|E]; [lra|]. split.
  - intros H. injection H as <-. field. exact E.
  - intros H. f_equal. apply (Rmult_eq_reg_r (D p2 - D p1)); [|exact E]. unfold Rdiv. rewrite Rmult_assoc, Rinv_l by exact E. lra.
Qed.

(** What the record holds, whenever the scan behind the shock stops before the innermost cell; at the innermost cell the
    cell before it is read, which is undefined. *)
Definition backed (a : array R) (n : Z) : Prop := exists b, make_backed [n] b = Ok a.
Lemma backed_out a n : backed a n -> 0 < n <= 2147483647 -> ashape a = [n] /\ aget a [two64 - 1] = UB.
Proof.
  intros (b & E) Hn. unfold make_backed in E. destruct (Z.eqb_spec (volume [n]) (Z.of_nat (length b))) as [EV|]; [|discriminate]. injection E as <-. split; [reflexivity|]. change (buf_read b (two64 - 1) = UB). unfold buf_read. destruct (Z.leb_spec 0 (two64 - 1)); [|unfold two64 in *; lia].
  destruct (nth_error b (Z.to_nat (two64 - 1))) eqn:EN; [|reflexivity]. exfalso. assert (K : (Z.to_nat (two64 - 1) < length b)%nat) by (apply nth_error_Some; congruence).
  rewrite volume_prod in EV; [|repeat constructor; lia|cbn [prodz fold_right]; lia]. cbn [prodz fold_right] in EV. apply Nat2Z.inj_lt in K. rewrite Z2Nat.id in K by (unfold two64; lia). unfold two64 in K. lia.
Qed.
Section Series.
Variables (H : hydro) (velocity : prim -> prim -> option R) (fuel : nat) (s : solution) (n : Z) (X : Z -> R) (p : array prim) (P : Z -> prim).
Hypothesis Hn : 2 <= n < 2147483647.
Hypothesis Hf : (Z.to_nat n < fuel)%nat.
Hypothesis HX : rep1 (s_vertices s) (n + 1) X.
Hypothesis Hp : primitives H fuel s = Ok p.
Hypothesis HP : rep1 p n P.
Let ctr (k : Z) : R := ((X k + X (k + 1)%Z) / 2)%R.
Lemma series_value i down up : find_shock_index fuel gamma_law_index p = Ok [i] -> 0 <= i < n - 1 -> find_index_of_maximum_pressure_behind fuel p i = Ok down -> find_index_of_pressure_plateau_ahead fuel p i = Ok up -> 0 <= down <= i -> 0 <= up < n ->
  (0 < down -> compute_time_series_data H velocity fuel s = Ok (TimeSeries (s_time s) (X i) (ctr up) (ctr down)
     (option_map fst (PolyModel.parabola_vertex (ctr (down - 1)) (ctr down) (ctr (down + 1)) (u1 (P (down - 1))) (u1 (P down)) (u1 (P (down + 1))))) (velocity (P up) (P down)))) /\
  (down = 0 -> backed (s_vertices s) (n + 1) -> compute_time_series_data H velocity fuel s = UB).
Proof.
  intros E1 Hi E2 E3 Hd Hu. unfold compute_time_series_data. rewrite Hp. bsimp. rewrite E1. bsimp. cbn [hd]. rewrite E2. bsimp. rewrite E3. bsimp.
  assert (E4 := midpoint1 Rplus (fun x => (x * 0.5)%R) _ (n + 1) X ltac:(unfold two64; lia) HX). destruct E4 as (rc & E4 & [R1 R2]). unfold cell_centers. rewrite E4. bsimp. replace (n + 1 - 1) with n in * by lia.
  destruct HX as [X1 X2]. rewrite X2 by lia. bsimp.
  assert (RC : forall k, 0 <= k < n -> aget rc [k] = Ok (ctr k)) by (intros k Hk; rewrite R2 by lia; unfold ctr; rewrite (Z.add_comm 1 k); f_equal; lra). rewrite !RC by lia. bsimp.
  destruct HP as [P1 P2]. split.
  - intros D. rewrite !w64_small by (unfold two64; lia). rewrite !RC by lia. bsimp. cbn [arr_map aget]. rewrite !P2 by lia. bsimp. reflexivity.
  - intros -> HB. destruct (backed_out _ _ HB ltac:(lia)) as [_ UBX].
    assert (UR : aget rc [w64 (0 - 1)] = UB); [|rewrite UR; reflexivity].
    unfold midpoint_on_axis in E4. apply bind_ok_inv in E4 as (l & EL & E4). apply bind_ok_inv in E4 as (r & ER & E4). apply bind_ok_inv in E4 as (z & EZ & E4). injection E4 as <-.
    cbn [arr_map aget]. unfold binary_op in EZ. destruct (seq_eqb (ashape l) (ashape r)); [|discriminate]. injection EZ as <-. cbn [aget].
    unfold select_axis in EL. rewrite X1 in EL. cbn [length Nat.leb] in EL. apply bind_ok_inv in EL as (sh & ES & EL). injection EL as <-. cbn [aget].
    match goal with |- context [map_index ?q ?k] => assert (EM : map_index q k = [two64 - 1]) by reflexivity; rewrite EM end. rewrite UBX. reflexivity.
Qed.
(** In particular: the reported radius is the inner face of cell i, while the steepest drop is across its outer face. *)
Theorem time_series_value : let e k := (ln (pre (P k) / Rpower (rho (P k)) (4 / 3)))%R in
  exists i down up, 0 <= i < n - 1 /\ (forall j, 0 <= j < n - 1 -> (e (i + 1)%Z - e i <= e (j + 1)%Z - e j)%R) /\
    0 <= down <= i /\ (forall k, down < k <= i -> (pre (P k) < pre (P (k - 1)%Z))%R) /\ (down = 0 \/ (pre (P (down - 1)%Z) <= pre (P down))%R) /\ (up = 0 \/ i <= up < n) /\
    (0 < down -> exists ts, compute_time_series_data H velocity fuel s = Ok ts /\ shock_radius ts = X i /\ radius_upstream ts = ctr up /\ radius_downstream ts = ctr down /\ shock_velocity ts = velocity (P up) (P down) /\
      radius_interpolated ts = option_map fst (PolyModel.parabola_vertex (ctr (down - 1)) (ctr down) (ctr (down + 1)) (u1 (P (down - 1))) (u1 (P down)) (u1 (P (down + 1))))) /\
    (down = 0 -> backed (s_vertices s) (n + 1) -> compute_time_series_data H velocity fuel s = UB).
Proof.
  intros e. destruct (shock_found fuel (4 / 3) p n P ltac:(lia) ltac:(lia) HP) as (i & E1 & Hi & A1 & _). destruct (maximum_pressure_behind fuel p n P i ltac:(unfold two64; lia) ltac:(lia) ltac:(lia) HP) as (down & E2 & Hd & B1 & B2).
  destruct (plateau_ahead fuel p n P i ltac:(unfold two64; lia) ltac:(lia) ltac:(lia) HP) as (up & E3 & HU). assert (HU' : up = 0 \/ i <= up < n) by (destruct HU as [(_ & HU & _)|(HU & _)]; [right; exact HU|left; exact HU]).
  destruct (series_value i down up E1 Hi E2 E3 Hd ltac:(lia)) as [V1 V2]. exists i, down, up. split; [exact Hi|]. split; [exact A1|]. split; [exact Hd|]. split; [exact B1|]. split; [exact B2|]. split; [exact HU'|]. split; [|exact V2].
  intros D. eexists. split; [apply V1, D|]. repeat split; reflexivity.
Qed.
End Series.
(** A pressure that falls outward everywhere makes every diagnostic undefined. *)
Theorem time_series_undefined H velocity fuel s n X p P : 2 <= n < 2147483647 -> (Z.to_nat n < fuel)%nat -> rep1 (s_vertices s) (n + 1) X -> backed (s_vertices s) (n + 1) ->
  primitives H fuel s = Ok p -> rep1 p n P -> (forall k, 0 < k < n -> (pre (P k) < pre (P (k - 1)%Z))%R) -> compute_time_series_data H velocity fuel s = UB.
Proof.
  intros Hn Hf HX HB Hp HP HM. destruct (time_series_value H velocity fuel s n X p P Hn Hf HX Hp HP) as (i & down & up & Hi & _ & Hd & _ & B2 & _ & _ & V).
  apply V; [|exact HB]. destruct B2 as [E|B2]; [exact E|]. destruct (Z.eq_dec down 0) as [E|N]; [exact E|]. specialize (HM down ltac:(lia)). lra.
Qed.
Lemma primitives_rep H fuel s n X U P : 1 <= n <= 2147483647 -> (Z.to_nat n <= fuel)%nat -> rep1 (s_vertices s) (n + 1) X -> rep1 (s_conserved s) n U ->
  (forall k, 0 <= k < n -> recover H (over5 (U k) (volume_of X k)) = Ok (P k)) -> exists p, primitives H fuel s = Ok p /\ rep1 p n P.
Proof.
  intros Hn Hf HX HU HP. unfold primitives. destruct (volumes_rep n X _ ltac:(unfold two64; lia) HX) as (dv & E1 & R1). rewrite E1. bsimp.
  destruct (binop1 over5 _ _ n _ _ HU R1) as (q & E2 & R2). rewrite E2. bsimp. pose proof (mapM1 (recover H) q n _ P R2 HP) as R3.
  destruct (evaluate1 fuel zero_prim _ n P ltac:(lia) Hf R3) as (p & E4 & R4). exists p. split; assumption.
Qed.
(** The reported radius of a shock: here the gas is the same on both sides of it, and drops one cell further out. *)
Definition stepped (k : Z) : prim := if k <? 3 then Prim 1 0 0 0 1 else Prim 1 0 0 0 (1 / 10).
Definition stepped_state : solution :=
  let X k := IZR (k + 1) in Solution 0 (vector 5 X) (vector 4 (fun k => times5 (euler_conserved (stepped k) (4 / 3)) (volume_of X k))).
Theorem shock_radius_refuted : exists ts p, compute_time_series_data euler_system euler_shock_velocity 5 stepped_state = Ok ts /\ shock_radius ts = 3%R /\
  primitives euler_system 5 stepped_state = Ok p /\ rep1 p 4 stepped /\ rep1 (s_vertices stepped_state) 5 (fun k => IZR (k + 1)) /\ stepped 1 = stepped 2.
Proof.
  set (X := fun k => IZR (k + 1)). assert (RX : rep1 (s_vertices stepped_state) 5 X) by apply vector_rep.
  destruct (primitives_rep euler_system 5 stepped_state 4 X (fun k => times5 (euler_conserved (stepped k) (4 / 3)) (volume_of X k)) stepped) as (p & E & RP); [lia|cbn; lia|exact RX|apply vector_rep| |].
  { intros k Hk. cbn [recover euler_system]. assert (V : (volume_of X k <> 0)%R).
    { unfold volume_of, shell_volume, X. rewrite !plus_IZR. assert (0 <= IZR k)%R by (apply IZR_le; lia). set (z := IZR k) in *. assert (0 < (1 + z + 1) ^ 3 - (z + 1) ^ 3)%R by nra. lra. }
    unfold over5, times5, stepped. f_equal. destruct (k <? 3); unfold euler_recover, euler_conserved, velocity_squared, gamma_law_index; cbv zeta; cbn [rho u1 u2 u3 pre c0 c1 c2 c3 c4];
      (destruct (Rlt_dec _ 0) as [L|_]; [destruct (Rlt_dec 0 0); [lra|]|]); f_equal; field; lra. }
  destruct (time_series_value euler_system euler_shock_velocity 5 stepped_state 4 X p stepped) as (i & down & up & Hi & A1 & Hd & B1 & B2 & _ & V & _); [lia|cbn; lia|exact RX|exact E|exact RP|].
  assert (R1 : Rpower 1 (4 / 3) = 1%R) by (unfold Rpower; rewrite ln_1, Rmult_0_r; apply exp_0).
  assert (L10 : (ln (1 / 10) < 0)%R) by (rewrite <- ln_1; apply ln_increasing; lra).
  assert (EN : forall k, ln (pre (stepped k) / Rpower (rho (stepped k)) (4 / 3)) = if k <? 3 then 0%R else ln (1 / 10)).
  { intros k. unfold stepped. destruct (k <? 3); cbn [pre rho]; rewrite R1; [replace (1 / 1)%R with 1%R by field; apply ln_1|f_equal; field]. }
  assert (I2 : i = 2). { specialize (A1 2 ltac:(lia)). rewrite !EN in A1. change (2 + 1 <? 3) with false in A1. change (2 <? 3) with true in A1. cbn iota in A1. destruct (Z.ltb_spec (i + 1) 3); [|lia]. destruct (Z.ltb_spec i 3); [|lia]. lra. }
  assert (D2 : down = 2). { destruct (Z.eq_dec down 2) as [D|D]; [exact D|]. specialize (B1 2 ltac:(lia)). cbn in B1. lra. } subst i down.
  destruct (V ltac:(lia)) as (ts & V1 & V2 & _). exists ts, p. split; [exact V1|]. split; [rewrite V2; unfold X; reflexivity|]. split; [exact E|]. split; [exact RP|]. split; [exact RX|reflexivity].
Qed.
(** *** Examples *)
(** The same cells: the steepest drop is found at 2, and no cell behind it has a higher pressure. *)
Example shock_found_example : find_shock_index 5 (4 / 3) (vector 4 stepped) = Ok [2] /\ find_index_of_maximum_pressure_behind 5 (vector 4 stepped) 2 = Ok 2.
Proof.
  assert (R1 : Rpower 1 (4 / 3) = 1%R) by (unfold Rpower; rewrite ln_1, Rmult_0_r; apply exp_0). assert (L10 : (ln (1 / 10) < 0)%R) by (rewrite <- ln_1; apply ln_increasing; lra).
  assert (EN : forall k, ln (pre (stepped k) / Rpower (rho (stepped k)) (4 / 3)) = if k <? 3 then 0%R else ln (1 / 10)).
  { intros k. unfold stepped. destruct (k <? 3); cbn [pre rho]; rewrite R1; [replace (1 / 1)%R with 1%R by field; apply ln_1|f_equal; field]. }
  split.
  - destruct (shock_found 5 (4 / 3) (vector 4 stepped) 4 stepped ltac:(lia) ltac:(cbn; lia) (vector_rep 4 stepped)) as (i & E & Hi & A & _). rewrite E. do 2 f_equal.
    specialize (A 2 ltac:(lia)). cbv beta zeta in A. rewrite !EN in A. change (2 + 1 <? 3) with false in A. change (2 <? 3) with true in A. cbn iota in A. destruct (Z.ltb_spec (i + 1) 3); [|lia]. destruct (Z.ltb_spec i 3); [|lia]. lra.
  - destruct (maximum_pressure_behind 5 (vector 4 stepped) 4 stepped 2 ltac:(unfold two64; lia) ltac:(lia) ltac:(cbn; lia) (vector_rep 4 stepped)) as (r & E & Hr & B & _). rewrite E. f_equal.
    destruct (Z.eq_dec r 2) as [D|D]; [exact D|]. specialize (B 2 ltac:(lia)). cbn in B. lra.
Qed.
(** Pressures 8, 2, 1: the slope halves at cell 2. *)
Example plateau_ahead_example : find_index_of_pressure_plateau_ahead 5 (vector 3 (fun k => Prim 1 0 0 0 (nth (Z.to_nat k) [8; 2; 1]%R 1%R))) 2 = Ok 2.
Proof.
  set (P := fun k => Prim 1 0 0 0 (nth (Z.to_nat k) [8; 2; 1]%R 1%R)). destruct (plateau_ahead 5 (vector 3 P) 3 P 2 ltac:(unfold two64; lia) ltac:(lia) ltac:(cbn; lia) (vector_rep 3 P)) as (r & E & R). rewrite E. f_equal.
  destruct R as [(_ & R & _)|(_ & [R|R])]; [lia|lia|]. exfalso. specialize (R 2 ltac:(lia)). unfold P in R. cbn [pre] in R. change (Z.to_nat (2 - 1 + 1)) with 2%nat in R. change (Z.to_nat (2 - 1)) with 1%nat in R. change (Z.to_nat (2 - 2 + 1)) with 1%nat in R. change (Z.to_nat (2 - 2)) with 0%nat in R. cbn [nth] in R.
  replace 8%R with (2 * (2 * 2))%R in R by ring. rewrite ln_1, !ln_mult in R by lra. lra.
Qed.
(** Densities 1 and 4 with velocities 0 and 3: the shock moves with velocity 4. *)
Example shock_velocity_example : euler_shock_velocity (Prim 1 0 0 0 1) (Prim 4 3 0 0 10) = Some 4%R.
Proof. apply shock_velocity_newtonian; cbn [rho u1]; [intros E|]; lra. Qed.
Print Assumptions drop_found.
Print Assumptions shock_found.
Print Assumptions maximum_behind.
Print Assumptions maximum_pressure_behind.
Print Assumptions plateau_ahead.
Print Assumptions plateau_ahead_refuted.
Print Assumptions shock_velocity_newtonian.
Print Assumptions shock_velocity_relativistic.
Print Assumptions time_series_value.
Print Assumptions time_series_undefined.
Print Assumptions shock_radius_refuted.
