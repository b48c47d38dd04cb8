(** C120: the diagnostics file of the explosion program, and the first one of a run (src/subprog_sedov.cpp 253-313, 497-515). *)
From Coq Require Import ZArith Reals List Lia Lra Bool Psatz String.
From Verif Require Import Base StrModel MapModel MapProofs NdModel NdSpec NdProofs NdOpsModel NdOpsProofs NdOpsProofs2 DimensionalModel HydroModel HlleProofs SrhdProps HlleProps SrhdRecoverProps SedovModel Rep1Proofs SedovProofs SedovProps SedovGridProps PolyModel
  ShockModel ShockProps ScheduleModel Hdf5Model Hdf5Props SedovDiagModel.
From Verif Require CheckpointProps.
Import ListNotations.
Close Scope string_scope.
Open Scope R_scope.

(** The two systems, each with its shock velocity. *)
Definition explosion_system (H : hydro) (velocity : prim -> prim -> option R) : Prop :=
  (H = euler_system /\ velocity = euler_shock_velocity) \/ (H = srhd_system /\ velocity = srhd_shock_velocity).
Definition centre (X : Z -> R) (k : Z) : R := (X k + X (k + 1)%Z) / 2.
(** The values F 0, ..., F (n-1) as the contents of an array of rank one. *)
Definition column (n : Z) (F : Z -> R) : list nat * list (option R) := ([Z.to_nat n], map (fun k => Some (F (Z.of_nat k))) (seq 0 (Z.to_nat n))).

Lemma mapM_values {A B} (f : A -> outcome B) (g : A -> B) l : (forall x, In x l -> f x = Ok (g x)) -> mapM f l = Ok (map g l).
Proof. induction l as [|x l IH]; intros HF; [reflexivity|]. cbn [mapM map]. rewrite HF by (left; reflexivity). bsimp. rewrite IH by (intros y Hy; apply HF; right; exact Hy). reflexivity. Qed.
Lemma contents_value a n F : (1 <= n <= 2147483647)%Z -> rep1 a n F -> contents a = Ok (column n F).
Proof.
  intros Hn [E1 E2]. unfold contents. rewrite E1. assert (V : volume [n] = n). { rewrite volume_prod; [cbn [prodz fold_right]; lia|apply Forall_cons; [lia|apply Forall_nil]|cbn [prodz fold_right]; lia]. }
  rewrite V. cbv zeta. rewrite (mapM_values _ (fun k => F (Z.of_nat k))). { bsimp. unfold column. rewrite map_map. reflexivity. }
  intros k Hk. apply in_seq in Hk. apply E2. lia.
Qed.
Lemma field_written name a n F g : (1 <= n <= 2147483647)%Z -> rep1 a n F -> plain (c_name name) = true -> fresh g (c_name name) ->
  write_field name a g = Ok (mset (c_name name) (OData (mkds TDouble (Simple (fst (column n F))) (map EDbl (snd (column n F))))) g).
Proof.
  intros Hn HA HP HF. unfold write_field. rewrite (contents_value a n F Hn HA). bsimp. apply write_new; [exact HP|left; exact HF|apply stored_any; exact I].
Qed.
Lemma field_read name (g : group (option R)) v : plain (c_name name) = true -> List.length (fst v) = 1%nat -> mfind (c_name name) g = Some (OData (mkds TDouble (Simple (fst v)) (map EDbl (snd v)))) ->
  read (array_info dbl 1) g name = Ok v.
Proof. intros HP HL HM. apply CheckpointProps.array_old; [exact HP|apply Forall_forall; intros x _; reflexivity|exact HL|exact HM]. Qed.

(** What is in the file, for any state whose shells hold the gas P and whose time series can be computed. *)
Theorem explosion_file H velocity fuel s n X U P ts : (2 <= n < 2147483647)%Z -> (Z.to_nat n < fuel)%nat -> shells s n X U ->
  (forall k, (0 <= k < n)%Z -> recover H (density_in X U k) = Ok (P k)) -> compute_time_series_data H velocity fuel s = Ok ts ->
  exists g, write_diagnostics H velocity fuel s = Ok g /\ List.length g = 11%nat /\
    let field name F := read (array_info dbl 1) g (lit name) = Ok (column n F) in
    let number name v := read (scalar_info dbl) g (lit name) = Ok v in
    field "mass_density"%string (fun k => rho (P k)) /\ field "gas_pressure"%string (fun k => pre (P k)) /\ field "radial_gamma_beta"%string (fun k => u1 (P k)) /\
    field "specific_entropy"%string (fun k => ln (pre (P k) / Rpower (rho (P k)) (4 / 3))) /\ field "radial_coordinates"%string (centre X) /\
    number "time"%string (Some (s_time s)) /\ number "shock_radius"%string (Some (shock_radius ts)) /\ number "shock_radius_upstream"%string (Some (radius_upstream ts)) /\
    number "shock_radius_downstream"%string (Some (radius_downstream ts)) /\ number "shock_radius_interpolated"%string (radius_interpolated ts) /\ number "shock_velocity"%string (shock_velocity ts).
Proof.
  intros Hn Hf [HX HU] HP ET.
  assert (TT : ts_time ts = s_time s).
  { unfold compute_time_series_data in ET. repeat (apply bind_ok_inv in ET as (? & _ & ET)). injection ET as <-. reflexivity. }
  destruct (primitives_rep H fuel s n X U P ltac:(lia) ltac:(lia) HX HU) as (p & EP & RP). { intros k Hk. rewrite density_spec. apply HP, Hk. }
  assert (EV : forall f : prim -> R, exists z, evaluate fuel 0 (arr_map f p) = Ok z /\ rep1 z n (fun k => f (P k))) by (intros f; apply evaluate1; [lia|lia|apply map1, RP]).
  destruct (EV (specific_entropy gamma_law_index)) as (se & E1 & R1). destruct (EV pre) as (gp & E2 & R2). destruct (EV rho) as (md & E3 & R3). destruct (EV u1) as (gb & E4 & R4).
  destruct (midpoint1 Rplus (fun x => x * 0.5) _ (n + 1) X ltac:(unfold two64; lia) HX) as (c & E5 & R5). replace (n + 1 - 1)%Z with n in R5 by lia.
  destruct (evaluate1 fuel 0 c n _ ltac:(lia) ltac:(lia) R5) as (rc & E6 & R6). assert (R6' : rep1 rc n (centre X)) by (apply (rep1_ext _ _ _ _ R6); intros k Hk; unfold centre; rewrite (Z.add_comm 1 k); lra).
  assert (ED : make_diagnostic_fields H velocity fuel s = Ok (Fields md gp se gb rc ts)).
  { unfold make_diagnostic_fields. rewrite EP. bsimp. rewrite E1. bsimp. rewrite E2. bsimp. rewrite E3. bsimp. rewrite E4. bsimp. unfold cell_centers. rewrite E5. bsimp. rewrite E6. bsimp. rewrite ET. reflexivity. }
  unfold write_diagnostics. rewrite ED. bsimp. cbn [f_pressure f_density f_entropy f_gamma_beta f_coordinates f_series].
  assert (N : (1 <= n <= 2147483647)%Z) by lia.
  rewrite (field_written _ gp n _ _ N R2) by reflexivity. bsimp. rewrite (field_written _ md n _ _ N R3) by reflexivity. bsimp. rewrite (field_written _ se n _ _ N R1) by reflexivity. bsimp.
  rewrite (field_written _ gb n _ _ N R4) by reflexivity. bsimp. rewrite (field_written _ rc n _ _ N R6') by reflexivity. bsimp.
  rewrite <- TT. eexists. split; [cbn; reflexivity|]. split; [reflexivity|]. cbv zeta.
  do 5 (split; [apply field_read; [reflexivity|reflexivity|reflexivity]|]).
  do 5 (split; [reflexivity|]). reflexivity.
Qed.

(** Nothing else is needed to rebuild a Newtonian state without transverse momentum. *)
Theorem newtonian_fields_rebuild X U k P : recover euler_system (density_in X U k) = Ok P -> X k <> X (k + 1)%Z -> 0 < c0 (density_in X U k) -> c2 (U k) = 0 -> c3 (U k) = 0 ->
  let V := (X (k + 1)%Z ^ 3 - X k ^ 3) / 3 in
  U k = V5 (rho P * V) (rho P * u1 P * V) 0 0 ((rho P * u1 P ^ 2 / 2 + pre P / (4 / 3 - 1)) * V).
Proof.
  intros ER HX HD Z2 Z3 V. assert (NV : V <> 0).
  { unfold V. intros E. apply HX. assert (F : (X (k + 1)%Z - X k) * (X (k + 1)%Z ^ 2 + X (k + 1)%Z * X k + X k ^ 2) = 0) by lra. apply Rmult_integral in F as [F|F]; [lra|].
    assert (X k = 0 /\ X (k + 1)%Z = 0) as [A B]; [|congruence]. set (x := X k) in *. set (y := X (k + 1)%Z) in *. assert (x ^ 2 = 0 /\ y ^ 2 = 0) as [A B] by nra. split; nra. }
  cbn [recover euler_system] in ER. injection ER as <-. unfold density_in in *. fold V in HD |- *. cbn [c0] in HD. cbn [c0 c1 c2 c3 c4]. rewrite Z2, Z3 in *.
  assert (N0 : c0 (U k) <> 0) by (intros E; rewrite E in HD; unfold Rdiv in HD; rewrite Rmult_0_l in HD; lra).
  unfold euler_recover, gamma_law_index. cbv zeta. cbn [rho u1 u2 u3 pre c0 c1 c2 c3 c4].
  assert (EP : forall p d : R, (if Rlt_dec p 0 then if Rlt_dec 0 0 then 0 * d else p else p) = p) by (intros p d; destruct (Rlt_dec p 0); [destruct (Rlt_dec 0 0); [lra|]|]; reflexivity).
  try rewrite EP. destruct (U k) as [a b c d e]. cbn [c0 c1 c2 c3 c4] in *. subst c d. replace 0.5 with (/ 2) by lra. f_equal; field; repeat split; try exact NV; try exact N0; lra.
Qed.

Lemma over_times U V : V <> 0 -> over5 (times5 U V) V = U.
Proof. intros N. destruct U. unfold over5, times5. cbn. f_equal; field; exact N. Qed.
Lemma rest_recovered H velocity d p : explosion_system H velocity -> 0 < d -> 0 < p -> recover H (to_conserved H (Prim d 0 0 0 p)) = Ok (Prim d 0 0 0 p).
Proof.
  intros [[-> _]|[-> _]] Hd Hp.
  - cbn [recover to_conserved euler_system]. f_equal. unfold euler_recover, euler_conserved, velocity_squared, gamma_law_index. cbv zeta. cbn [rho u1 u2 u3 pre c0 c1 c2 c3 c4].
    destruct (Rlt_dec _ _) as [L|_]; [destruct (Rlt_dec 0 0); [lra|]|]; f_equal; field; lra.
  - cbn [recover to_conserved srhd_system]. apply recover_static_exact; try reflexivity; [|lra]. unfold relativistic, gamma_law_index. cbn [rho pre]. lra.
Qed.
Lemma same_gas_no_velocity H velocity P : explosion_system H velocity -> velocity P P = None.
Proof.
  intros [[_ ->]|[_ ->]]; [unfold euler_shock_velocity|unfold srhd_shock_velocity; cbv zeta]; destruct (Req_EM_T _ 0) as [_|N]; try reflexivity; exfalso; apply N; ring.
Qed.
Lemma new_run_backed H fuel d p a outer_radius nr s : new_run H fuel d p a outer_radius nr = Ok s -> exists n, backed (s_vertices s) n.
Proof.
  unfold new_run. intros E. cbv zeta in E. apply bind_ok_inv in E as (z & _ & E). apply bind_ok_inv in E as (c & _ & E). unfold new_solution in E. cbv zeta in E.
  apply bind_ok_inv in E as (dv & _ & E). apply bind_ok_inv in E as (xc & _ & E). apply bind_ok_inv in E as (xv & EX & E). apply bind_ok_inv in E as (u & _ & E). apply bind_ok_inv in E as (u' & _ & E).
  injection E as <-. cbn [s_vertices]. unfold evaluate in EX. apply bind_ok_inv in EX as (b & _ & EX). cbn [new_vertices arr_map linspace ashape] in EX. eexists. exists b. exact EX.
Qed.
(** A parabola through three points at the same height has no vertex. *)
Lemma flat_no_vertex x1 x2 x3 : PolyModel.parabola_vertex x1 x2 x3 0 0 0 = None.
Proof.
  unfold PolyModel.parabola_vertex. cbv zeta. unfold fdiv. destruct (Req_EM_T ((x1 - x2) * (x1 - x3) * (x2 - x3)) 0); [reflexivity|]. cbn [obind].
  destruct (Req_EM_T (2 * _) 0) as [_|N]; [reflexivity|]. exfalso. apply N. unfold Rdiv. ring.
Qed.

(** The first output of a run.  Zone i is the last one that holds the gas of the explosion, zone i + 1 the first of the gas around it, whose
    entropy is smaller.  The gas is at rest and the same in zones i - 1 and i: neither the interpolated radius nor the velocity is a number, and
    the radius is the inner face of zone i.  If zone 0 is the only hot one, the diagnostics are undefined. *)
Theorem first_record H velocity fuel d p a outer_radius nr z : explosion_system H velocity -> 1 < outer_radius -> (2 <= z < 2147483647)%Z -> (Z.to_nat z < fuel)%nat ->
  IZR z <= ln outer_radius / ln 10 * IZR nr < IZR z + 1 -> 0 < d -> 0 < p -> 0 <= a ->
  exists s X, new_run H fuel d p a outer_radius nr = Ok s /\ grid z X /\ X 0%Z = / sqrt 10 /\ X z = outer_radius /\ (exists q, 1 < q /\ forall k, X (k + 1)%Z = X k * q) /\
    forall i, (0 <= i < z - 1)%Z -> centre X i < 1 -> 1 <= centre X (i + 1)%Z -> exp (a / 3 * ln (centre X (i + 1)%Z)) / 1000000 < p / Rpower d (4 / 3) ->
      (i = 0%Z -> compute_time_series_data H velocity fuel s = UB /\ write_diagnostics H velocity fuel s = UB) /\
      ((1 <= i)%Z -> compute_time_series_data H velocity fuel s = Ok (TimeSeries 0 (X i) (centre X (if (i =? 1)%Z then 0%Z else i)) (centre X i) None None) /\
         X i < 1 /\ exists g, write_diagnostics H velocity fuel s = Ok g /\ read (scalar_info dbl) g (lit "shock_radius"%string) = Ok (Some (X i)) /\
           read (scalar_info dbl) g (lit "shock_velocity"%string) = Ok None /\ read (scalar_info dbl) g (lit "shock_radius_interpolated"%string) = Ok None /\
           read (array_info dbl 1) g (lit "radial_gamma_beta"%string) = Ok (column z (fun _ => 0)) /\
           read (array_info dbl 1) g (lit "gas_pressure"%string) = Ok (column z (fun k => initial_pressure p a (centre X k))) /\
           read (array_info dbl 1) g (lit "mass_density"%string) = Ok (column z (fun k => initial_density d a (centre X k)))).
Proof.
  intros HH HR Hz Hf HZ Hd Hp Ha. destruct (new_run_grid H fuel d p a outer_radius nr z HR ltac:(lia) Hf HZ) as (s & X & ES & TS & HG & X0 & XZ & HQ & HS).
  exists s, X. split; [exact ES|]. split; [exact HG|]. split; [exact X0|]. split; [exact XZ|]. split; [exact HQ|].
  destruct (new_run_backed _ _ _ _ _ _ _ _ ES) as (nb & HB).
  assert (HB' : backed (s_vertices s) (z + 1)).
  { destruct HB as (b & EB). exists b. destruct HS as [[SX _] _]. assert (EN : nb = (z + 1)%Z); [|rewrite <- EN; exact EB]. unfold make_backed in EB. destruct (_ =? _)%Z eqn:EV in EB; [|discriminate]. injection EB as EB. rewrite <- EB in SX. cbn [ashape] in SX. congruence. }
  clear HB. set (P := fun k => Prim (initial_density d a (centre X k)) 0 0 0 (initial_pressure p a (centre X k))).
  set (U := fun k => times5 (to_conserved H (P k)) ((X (k + 1)%Z ^ 3 - X k ^ 3) / 3)). change (shells s z X U) in HS. pose proof HS as [HX HU].
  destruct HQ as (q & Hq & Gq). destruct HG as [HG0 HG].
  assert (XP : forall k, (0 <= k <= z)%Z -> 0 < X k).
  { intros k Hk. replace k with (Z.of_nat (Z.to_nat k)) by lia. assert (B : (Z.to_nat k <= Z.to_nat z)%nat) by lia. induction (Z.to_nat k) as [|m IH]; [exact HG0|]. replace (Z.of_nat (S m)) with (Z.of_nat m + 1)%Z by lia. rewrite Gq. specialize (IH ltac:(lia)). nra. }
  assert (CP : forall k, (0 <= k < z)%Z -> 0 < centre X k) by (intros k Hk; unfold centre; pose proof (XP k ltac:(lia)); pose proof (XP (k + 1)%Z ltac:(lia)); lra).
  assert (CI1 : forall k, (0 <= k < z - 1)%Z -> centre X k < centre X (k + 1)%Z). { intros k Hk. unfold centre. pose proof (HG k ltac:(lia)). pose proof (HG (k + 1)%Z ltac:(lia)). lra. }
  assert (CI : forall k j, (0 <= k <= j)%Z -> (j < z)%Z -> centre X k <= centre X j).
  { intros k j Hkj Hj. replace j with (k + Z.of_nat (Z.to_nat (j - k)))%Z by lia. assert (B : (Z.to_nat (j - k) <= Z.to_nat (z - 1 - k))%nat) by lia.
    induction (Z.to_nat (j - k)) as [|m IH]; [replace (k + Z.of_nat 0)%Z with k by lia; lra|]. replace (k + Z.of_nat (S m))%Z with (k + Z.of_nat m + 1)%Z by lia. specialize (IH ltac:(lia)). pose proof (CI1 (k + Z.of_nat m)%Z ltac:(lia)). lra. }
  assert (GP : forall k, 0 < rho (P k) /\ 0 < pre (P k)).
  { intros k. unfold P. cbn [rho pre]. unfold initial_density, initial_pressure. destruct (Rlt_dec (centre X k) 1); [split; assumption|]. pose proof (exp_pos (- a * ln (centre X k))). split; [assumption|lra]. }
  assert (RV : forall k, (0 <= k < z)%Z -> recover H (density_in X U k) = Ok (P k)).
  { intros k Hk. rewrite <- density_spec. unfold U. rewrite volume_spec. rewrite over_times. { apply (rest_recovered H velocity); [exact HH|apply GP|apply GP]. }
    pose proof (XP k ltac:(lia)). pose proof (HG k Hk). assert (0 < X (k + 1)%Z ^ 3 - X k ^ 3); [|lra]. set (x := X k) in *. set (y := X (k + 1)%Z) in *. replace (y ^ 3 - x ^ 3) with ((y - x) * (y * y + y * x + x * x)) by ring. apply Rmult_lt_0_compat; nra. }
  destruct (primitives_rep H fuel s z X U P ltac:(lia) ltac:(lia) HX HU) as (pa & EP & RP). { intros k Hk. rewrite density_spec. apply RV, Hk. }
  intros i Hi C1 C2 HE. destruct (shock_found fuel (4 / 3) pa z P ltac:(lia) ltac:(lia) RP) as (i' & F1 & Hi' & F2 & _). set (e := fun k => ln (pre (P k) / Rpower (rho (P k)) (4 / 3))) in *.
  change (forall j, (0 <= j < z - 1)%Z -> e (i' + 1)%Z - e i' <= e (j + 1)%Z - e j) in F2.
  assert (HOT : forall k, (0 <= k <= i)%Z -> P k = Prim d 0 0 0 p). { intros k Hk. unfold P, initial_density, initial_pressure. pose proof (CI k i ltac:(lia) ltac:(lia)). destruct (Rlt_dec (centre X k) 1); [reflexivity|lra]. }
  assert (COLD : forall k, (i < k < z)%Z -> e k = a / 3 * ln (centre X k) - ln 1000000).
  { intros k Hk. unfold e, P, initial_density, initial_pressure. pose proof (CI (i + 1)%Z k ltac:(lia) ltac:(lia)). destruct (Rlt_dec (centre X k) 1); [lra|]. cbn [rho pre]. unfold Rpower. rewrite ln_exp.
    set (L := ln (centre X k)). unfold Rdiv at 1 2. rewrite (Rmult_comm (exp (- a * L))), Rmult_assoc, <- exp_Ropp, <- exp_plus. rewrite ln_mult by (try apply exp_pos; lra). rewrite ln_Rinv, ln_exp by lra. field. }
  assert (HOTe : forall k, (0 <= k <= i)%Z -> e k = ln (p / Rpower d (4 / 3))) by (intros k Hk; unfold e; rewrite HOT by exact Hk; reflexivity).
  assert (DROP : e (i + 1)%Z < e i).
  { rewrite COLD, (HOTe i) by lia. rewrite <- (ln_exp (a / 3 * ln (centre X (i + 1)%Z))) at 1. assert (LD : forall x y, 0 < x -> 0 < y -> ln x - ln y = ln (x / y)) by (intros x y Hx Hy; unfold Rdiv; rewrite ln_mult, ln_Rinv by (try apply Rinv_0_lt_compat; assumption); ring). rewrite LD by (try apply exp_pos; lra). apply ln_increasing; [apply Rdiv_lt_0_compat; [apply exp_pos|lra]|exact HE]. }
  assert (i' = i). 
  { pose proof (F2 i Hi) as B. destruct (Z.lt_trichotomy i' i) as [L|[L|L]]; [|exact L|].
    - rewrite (HOTe i'), (HOTe (i' + 1)%Z) in B by lia. lra.
    - rewrite (COLD i'), (COLD (i' + 1)%Z) in B by lia. exfalso. assert (ln (centre X i') < ln (centre X (i' + 1)%Z)) by (apply ln_increasing; [apply CP; lia|apply CI1; lia]). nra. }
  subst i'. destruct (maximum_pressure_behind fuel pa z P i ltac:(unfold two64; lia) ltac:(lia) ltac:(lia) RP) as (down & E2 & Hdn & B1 & B2).
  assert (down = i). { destruct (Z.eq_dec down i) as [D|D]; [exact D|]. specialize (B1 i ltac:(lia)). rewrite (HOT i), (HOT (i - 1)%Z) in B1 by lia. lra. } subst down.
  destruct (plateau_ahead fuel pa z P i ltac:(unfold two64; lia) ltac:(lia) ltac:(lia) RP) as (up & E3 & HU3).
  assert (UP : up = if (i <? 2)%Z then 0%Z else i).
  { destruct (Z.ltb_spec i 2) as [L|L]; [destruct HU3 as [(G2 & _)|(G2 & _)]; [lia|exact G2]|].
    assert (FLAT : ln (pre (P (i - 1 + 1)%Z)) - ln (pre (P (i - 1)%Z)) = 0 /\ ln (pre (P (i - 2 + 1)%Z)) - ln (pre (P (i - 2)%Z)) = 0) by (rewrite !HOT by lia; lra). destruct FLAT as [FL1 FL2].
    destruct HU3 as [(_ & G2 & G3 & _)|(_ & [G2|G2])]; [|lia|].
    - destruct (Z.eq_dec up i) as [D|D]; [exact D|]. specialize (G3 i ltac:(lia)). lra.
    - specialize (G2 i ltac:(lia)). lra. }
  assert (UPB : (0 <= up < z)%Z) by (rewrite UP; destruct (Z.ltb_spec i 2); lia).
  destruct (series_value H velocity fuel s z X pa P ltac:(lia) Hf HX EP RP i i up F1 Hi E2 E3 ltac:(lia) UPB) as [V1 V2]. split.
  - intros I0. assert (ET : compute_time_series_data H velocity fuel s = UB) by (apply V2; assumption). split; [exact ET|]. unfold write_diagnostics, make_diagnostic_fields. rewrite EP. bsimp.
    assert (EV : forall f : prim -> R, exists y, evaluate fuel 0 (arr_map f pa) = Ok y) by (intros f; destruct (evaluate1 fuel 0 (arr_map f pa) z _ ltac:(lia) ltac:(lia) (map1 f pa z P RP)) as (y & EY & _); exists y; exact EY).
    destruct (EV (specific_entropy gamma_law_index)) as (y1 & ->). bsimp. destruct (EV pre) as (y2 & ->). bsimp. destruct (EV rho) as (y3 & ->). bsimp. destruct (EV u1) as (y4 & ->). bsimp.
    unfold cell_centers. destruct (midpoint1 Rplus (fun x => x * 0.5) _ (z + 1) X ltac:(unfold two64; lia) HX) as (c & -> & R5). bsimp. replace (z + 1 - 1)%Z with z in R5 by lia.
    destruct (evaluate1 fuel 0 c z _ ltac:(lia) ltac:(lia) R5) as (rc & -> & _). bsimp. rewrite ET. reflexivity.
  - intros I1. assert (ET : compute_time_series_data H velocity fuel s = Ok (TimeSeries 0 (X i) (centre X (if (i =? 1)%Z then 0%Z else i)) (centre X i) None None)).
    { rewrite V1 by lia. f_equal. rewrite TS. unfold P at 1 2 3. cbn [u1]. rewrite flat_no_vertex. rewrite (HOT up) by (rewrite UP; destruct (Z.ltb_spec i 2); lia). rewrite (HOT i) by lia.
      rewrite (same_gas_no_velocity H velocity _ HH). cbn [option_map]. rewrite UP. unfold centre. destruct (Z.ltb_spec i 2), (Z.eqb_spec i 1); try lia; reflexivity. }
    split; [exact ET|]. split. { unfold centre in C1. pose proof (HG i ltac:(lia)). lra. }
    destruct (explosion_file H velocity fuel s z X U P _ ltac:(lia) Hf HS RV ET) as (g & EG & _ & K1 & K2 & K3 & _ & _ & _ & K4 & _ & _ & K5 & K6). exists g.
    split; [exact EG|]. split; [exact K4|]. split; [exact K6|]. split; [exact K5|]. split; [exact K3|]. split; [exact K2|exact K1].
Qed.

Lemma two_decades : ln 100 / ln 10 = 2.
Proof. replace 100 with (10 * 10) by ring. rewrite ln_mult by lra. pose proof ln10. field. lra. Qed.
Lemma geometric_power X q : (forall k, X (k + 1)%Z = X k * q) -> forall m : nat, X (Z.of_nat m) = X 0%Z * q ^ m.
Proof. intros G m. induction m as [|m IH]; [cbn; ring|]. replace (Z.of_nat (S m)) with (Z.of_nat m + 1)%Z by lia. rewrite G, IH. cbn [pow]. ring. Qed.
Lemma last_below (f : Z -> R) (n : nat) j : f j < 1 -> 1 <= f (j + Z.of_nat n)%Z -> exists i, (j <= i < j + Z.of_nat n)%Z /\ f i < 1 /\ 1 <= f (i + 1)%Z.
Proof.
  revert j. induction n as [|n IH]; intros j A B; [replace (j + Z.of_nat 0)%Z with j in B by lia; lra|]. destruct (Rlt_le_dec (f (j + 1)%Z) 1) as [L|L].
  - destruct (IH (j + 1)%Z L) as (i & Hi & R). { replace (j + 1 + Z.of_nat n)%Z with (j + Z.of_nat (S n))%Z by lia. exact B. } exists i. split; [lia|exact R].
  - exists j. split; [lia|]. split; assumption.
Qed.
Lemma root10 : 3 < sqrt 10 /\ sqrt 10 * sqrt 10 = 10 /\ 0 < / sqrt 10 /\ / sqrt 10 * sqrt 10 = 1.
Proof. pose proof (sqrt_sqrt 10 ltac:(lra)) as E. pose proof (sqrt_pos 10). assert (3 < sqrt 10) by nra. split; [assumption|]. split; [exact E|]. split; [apply Rinv_0_lt_compat; lra|apply Rinv_l; lra]. Qed.
(** With the options as they are by default, the velocity and the interpolated radius of the first row are not numbers. *)
Theorem first_velocity_refuted H velocity fuel : explosion_system H velocity -> (512 < Z.of_nat fuel)%Z ->
  exists s ts, new_run H fuel 1 1 0 100 256 = Ok s /\ compute_time_series_data H velocity fuel s = Ok ts /\ shock_velocity ts = None /\ radius_interpolated ts = None /\ shock_radius ts < 1.
Proof.
  intros HH Hf. destruct (first_record H velocity fuel 1 1 0 100 256 512 HH ltac:(lra) ltac:(lia) ltac:(lia)) as (s & X & ES & _ & X0 & XZ & (q & Hq & G) & F); [rewrite two_decades; lra|lra|lra|lra|].
  destruct root10 as (R3 & R10 & RI & R1). pose proof (geometric_power X q G) as GP.
  assert (Q : q ^ 512 = sqrt 10 ^ 5).
  { pose proof (GP 512%nat) as E. change (Z.of_nat 512) with 512%Z in E. rewrite XZ, X0 in E. assert (E2 : sqrt 10 * 100 = q ^ 512) by (rewrite E, <- Rmult_assoc, (Rmult_comm (sqrt 10)), R1; ring). rewrite <- E2. set (r := sqrt 10) in *. replace (r ^ 5) with (r * ((r * r) * (r * r))) by ring. rewrite R10. ring. }
  assert (Q2 : q * q < sqrt 10).
  { destruct (Rlt_le_dec (q * q) (sqrt 10)) as [L|L]; [exact L|]. exfalso. assert (A : sqrt 10 ^ 256 <= (q * q) ^ 256) by (apply pow_incr; lra). replace ((q * q) ^ 256) with (q ^ 512) in A by (replace (q * q) with (q ^ 2) by ring; rewrite <- pow_mult; reflexivity).
    assert (B : sqrt 10 ^ 5 < sqrt 10 ^ 256) by (apply Rlt_pow; [lra|lia]). lra. }
  destruct (last_below (centre X) 510 1) as (i & Hi & C1 & C2).
  { unfold centre. pose proof (GP 1%nat) as E1. pose proof (GP 2%nat) as E2. change (Z.of_nat 1) with 1%Z in E1. change (Z.of_nat 2) with 2%Z in E2. change (1 + 1)%Z with 2%Z. rewrite E1, E2, X0. cbn [pow]. set (r := sqrt 10) in *. nra. }
  { unfold centre. change (1 + Z.of_nat 510)%Z with 511%Z. change (511 + 1)%Z with 512%Z. rewrite XZ. pose proof (GP 511%nat) as E. change (Z.of_nat 511) with 511%Z in E. rewrite X0 in E. assert (0 < X 511%Z) by (rewrite E; apply Rmult_lt_0_compat; [exact RI|apply pow_lt; lra]). lra. }
  change (1 + Z.of_nat 510)%Z with 511%Z in Hi.
  destruct (F i ltac:(lia) C1 C2) as [_ V]. { replace (0 / 3) with 0 by field. rewrite Rmult_0_l, exp_0. unfold Rpower. rewrite ln_1, Rmult_0_r, exp_0. lra. }
  destruct (V ltac:(lia)) as (ET & XI & _). exists s. eexists. split; [exact ES|]. split; [exact ET|]. split; [reflexivity|]. split; [reflexivity|exact XI].
Qed.
(** With three zones per decade and all other options as they are by default, the first output of the run is undefined. *)
Theorem first_output_refuted H velocity fuel : explosion_system H velocity -> (6 < Z.of_nat fuel)%Z ->
  exists s, new_run H fuel 1 1 0 100 3 = Ok s /\ compute_time_series_data H velocity fuel s = UB /\ write_diagnostics H velocity fuel s = UB.
Proof.
  intros HH Hf. destruct (first_record H velocity fuel 1 1 0 100 3 6 HH ltac:(lra) ltac:(lia) ltac:(lia)) as (s & X & ES & _ & X0 & XZ & (q & Hq & G) & F); [rewrite two_decades; lra|lra|lra|lra|].
  destruct root10 as (R3 & R10 & RI & R1). pose proof (geometric_power X q G) as GP.
  assert (Q : q ^ 6 = sqrt 10 ^ 5).
  { pose proof (GP 6%nat) as E. change (Z.of_nat 6) with 6%Z in E. rewrite XZ, X0 in E. assert (E2 : sqrt 10 * 100 = q ^ 6) by (rewrite E, <- Rmult_assoc, (Rmult_comm (sqrt 10)), R1; ring). rewrite <- E2. set (r := sqrt 10) in *. replace (r ^ 5) with (r * ((r * r) * (r * r))) by ring. rewrite R10. ring. }
  assert (QU : q <= sqrt 10). { destruct (Rle_lt_dec q (sqrt 10)) as [L|L]; [exact L|]. exfalso. assert (A : sqrt 10 ^ 6 <= q ^ 6) by (apply pow_incr; lra). assert (B : sqrt 10 ^ 5 < sqrt 10 ^ 6) by (apply Rlt_pow; [lra|lia]). lra. }
  assert (QL : 2 * sqrt 10 <= q * q).
  { destruct (Rle_lt_dec (2 * sqrt 10) (q * q)) as [L|L]; [exact L|]. exfalso. assert (A : (q * q) ^ 3 <= (2 * sqrt 10) ^ 3) by (apply pow_incr; nra). replace ((q * q) ^ 3) with (q ^ 6) in A by ring. rewrite Q in A. set (r := sqrt 10) in *. replace (r ^ 5) with (r * r * r ^ 3) in A by ring. replace ((2 * r) ^ 3) with (8 * r ^ 3) in A by ring. rewrite R10 in A. assert (0 < r ^ 3) by (apply pow_lt; lra). lra. }
  pose proof (GP 1%nat) as E1. pose proof (GP 2%nat) as E2. change (Z.of_nat 1) with 1%Z in E1. change (Z.of_nat 2) with 2%Z in E2. cbn [pow] in E1, E2. rewrite X0 in E1, E2.
  destruct (F 0%Z ltac:(lia)) as [V _].
  - unfold centre. change (0 + 1)%Z with 1%Z. rewrite X0, E1. set (r := sqrt 10) in *. nra.
  - unfold centre. change (0 + 1)%Z with 1%Z. change (1 + 1)%Z with 2%Z. rewrite E1, E2. set (r := sqrt 10) in *. set (t := / r) in *. nra.
  - replace (0 / 3) with 0 by field. rewrite Rmult_0_l, exp_0. unfold Rpower. rewrite ln_1, Rmult_0_r, exp_0. lra.
  - destruct (V eq_refl) as [V1 V2]. exists s. split; [exact ES|]. split; assumption.
Qed.

(** *** Example: four shells between the radii 1 and 5 with a drop in the pressure at 4: the fields in the file, and the mass of a shell from them. *)
Example explosion_file_example : exists g, write_diagnostics euler_system euler_shock_velocity 5 stepped_state = Ok g /\
  read (array_info dbl 1) g (lit "gas_pressure"%string) = Ok ([4%nat], [Some 1; Some 1; Some 1; Some (1 / 10)]) /\
  read (array_info dbl 1) g (lit "radial_coordinates"%string) = Ok ([4%nat], [Some ((1 + 2) / 2); Some ((2 + 3) / 2); Some ((3 + 4) / 2); Some ((4 + 5) / 2)]) /\
  read (scalar_info dbl) g (lit "shock_radius"%string) = Ok (Some 3).
Proof.
  destruct shock_radius_refuted as (ts & p & ET & SR & EP & RP & RX & _).
  set (X := fun k => IZR (k + 1)) in *. set (U := fun k => times5 (euler_conserved (stepped k) (4 / 3)) (volume_of X k)).
  destruct (explosion_file euler_system euler_shock_velocity 5 stepped_state 4 X U stepped ts) as (g & EG & _ & _ & K2 & _ & _ & K5 & _ & K7 & _); [lia|cbn; lia|split; [exact RX|apply vector_rep]| |exact ET|].
  - intros k Hk. cbn [recover euler_system]. assert (V : volume_of X k <> 0).
    { unfold volume_of, shell_volume, X. rewrite !plus_IZR. assert (0 <= IZR k)%R by (apply IZR_le; lia). set (z := IZR k) in *. assert (0 < (1 + z + 1) ^ 3 - (z + 1) ^ 3)%R by nra. lra. }
    rewrite <- density_spec. unfold U. rewrite over_times by exact V.
    assert (ER : forall pr, 0 < pr -> Ok (euler_recover (euler_conserved (Prim 1 0 0 0 pr) (4 / 3)) gamma_law_index 0) = Ok (Prim 1 0 0 0 pr)) by (intros pr Hpr; apply (rest_recovered euler_system euler_shock_velocity 1 pr); [left; split; reflexivity|lra|exact Hpr]).
    unfold stepped. destruct (k <? 3)%Z; apply ER; lra.
  - exists g. split; [exact EG|]. split; [exact K2|]. split; [exact K5|]. rewrite K7, SR. reflexivity.
Qed.

Print Assumptions explosion_file.
Print Assumptions newtonian_fields_rebuild.
Print Assumptions first_record.
Print Assumptions first_velocity_refuted.
Print Assumptions first_output_refuted.
Print Assumptions explosion_file_example.
