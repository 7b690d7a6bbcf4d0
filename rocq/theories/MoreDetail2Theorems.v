(** More details: units of cloud fractions (C91), texture of the soil and heat flux from the snow (C97). *)
From Coq Require Import String.
From Verif Require Import Common Constants ForcingModel ResampleTheorems SoilModel DatasetModel.
From Verif Require SoilRunModel HeatModel.
Open Scope string_scope.
Open Scope R_scope.

(** ** C91 *)
(** A cloud fraction without units becomes a percentage exactly if the data have more than ten variables (station coordinates included), it has
    at least one value, and no value exceeds 1; otherwise the numbers are taken as they are. *)
Theorem c91_cloud_rule : forall d vals,
  let variables := (List.length (rd_vars d) + List.length (filter (fun x : num => match x with Some _ => true | None => false end) [rd_lon d; rd_lat d; rd_alt d]))%nat in
  let scaled := (10 < variables)%nat /\ (exists m, In (Some m) vals) /\ forall x : R, In (Some x) vals -> x <= 1 in
  (scaled -> convert_units d "cloud_fraction" "%" (VR None vals) = inr (map (numscale 100) vals))
  /\ (~ scaled -> convert_units d "cloud_fraction" "%" (VR None vals) = inr vals).
Proof.
  intros d vals variables scaled. unfold convert_units. cbn [String.eqb Ascii.eqb Bool.eqb v_units v_vals opt_eqb orb].
  assert (V : data_len d = variables).
  { unfold data_len, variables. destruct (rd_lon d), (rd_lat d), (rd_alt d); cbn; lia. }
  rewrite V. unfold max_le.
  assert (M : (10 <? variables)%nat && match num_max vals with Some m => if Rle_dec m 1 then true else false | None => false end = true <-> scaled).
  { unfold scaled. rewrite andb_true_iff, Nat.ltb_lt. destruct (num_max vals) as [m|] eqn:E.
    - apply num_max_spec in E. destruct E as [I B]. destruct (Rle_dec m 1) as [L|G].
      + split; [|intros (H & _); auto]. intros (H & _). split; [auto|]. split; [eauto|]. intros x X. specialize (B x X). lra.
      + split; [intros (_ & H); discriminate|]. intros (_ & _ & H). exfalso. apply G. auto.
    - split; [intros (_ & H); discriminate|]. intros (_ & (m & I) & _). exfalso. clear - I E. induction vals as [|y l IH]; [contradiction|].
      cbn in E. destruct y as [a|]; [destruct (num_max l); discriminate|]. destruct I as [I|I]; [discriminate|auto]. }
  split; intro H.
  - apply M in H. rewrite H. reflexivity.
  - destruct (_ && _); [|reflexivity]. exfalso. apply H, M. reflexivity.
Qed.
Print Assumptions c91_cloud_rule.
Example c91_cloud_rule_example : convert_units (RD [] [] None None (Some 11) (Some 47) (Some 1000)) "cloud_fraction" "%" (VR None [Some 0.5; None]) = inr [Some 0.5; None].
Proof. apply (c91_cloud_rule (RD [] [] None None (Some 11) (Some 47) (Some 1000)) [Some 0.5; None]). cbn. intros (H & _). lia. Qed.

(** ** C97 *)
Import SoilRunModel.
(** Clapp-Hornberger exponent and saturated water pressure from the texture: values without sand and clay, and the change with either. *)
Theorem c97_texture : forall sand clay d,
  init_clapp 0 0 = 3.1 /\ init_clapp (sand + d) clay - init_clapp sand clay = -0.3 * d /\ init_clapp sand (clay + d) - init_clapp sand clay = 15.7 * d
  /\ init_pressure 0 0 = Rpower 10 0.17 /\ init_pressure (sand + d) clay = init_pressure sand clay * Rpower 10 (-1.58 * d)
  /\ init_pressure sand (clay + d) = init_pressure sand clay * Rpower 10 (-0.63 * d).
Proof.
  intros. unfold init_clapp, init_pressure. repeat split; try lra.
  - f_equal. lra.
  - rewrite <- Rpower_plus. f_equal. lra.
  - rewrite <- Rpower_plus. f_equal. lra.
Qed.
Print Assumptions c97_texture.
(** The soil gets the heat flux of the surface if there is no snow, else the flux from the middle of the lowest snow layer to the middle of the
    first soil layer through both half layers in series. *)
Theorem c97_flux : forall f c l,
  let s := sc_layer c in let k := therm_cond (soil_properties s) in
  (so_ns f = 0%nat -> col_flux f (c :: l) = so_flux f)
  /\ (forall n, so_ns f = S n -> 0 < so_dx f n -> 0 < so_cond f n -> 0 < thickness s -> 0 < k ->
      col_flux f (c :: l) * (so_dx f n / 2 / so_cond f n + thickness s / 2 / k) = so_temp f n - temp s).
Proof.
  intros f c l s k. unfold col_flux, HeatModel.soil_heat_flux. split.
  - intros ->. reflexivity.
  - intros n -> D C T K. change (Nat.eqb (S n) 0) with false. cbn [Nat.sub]. rewrite Nat.sub_0_r.
    change (col_dx (c :: l) 0) with (thickness s). change (col_temp (c :: l) 0) with (temp s). change (col_cond (c :: l) 0) with k.
    assert (0 < so_dx f n / so_cond f n) by (apply Rdiv_lt_0_compat; auto). assert (0 < thickness s / k) by (apply Rdiv_lt_0_compat; auto).
    replace (so_dx f n / 2 / so_cond f n + thickness s / 2 / k) with ((so_dx f n / so_cond f n + thickness s / k) / 2) by (field; lra).
    set (a := so_dx f n / so_cond f n) in *. set (b := thickness s / k) in *. field. lra.
Qed.
Print Assumptions c97_flux.
Example c97_flux_example : let s := SoilLayer 0.1 280 2000000 1 0.2 0.4 0.3 5 0 0 in
  col_flux (SFO 0 (fun _ => 0) (fun _ => 0) (fun _ => 0) 12) [SCELL s None None] = 12.
Proof. intro s. apply (c97_flux (SFO 0 (fun _ => 0) (fun _ => 0) (fun _ => 0) 12) (SCELL s None None) []). reflexivity. Qed.
