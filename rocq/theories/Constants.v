(** Physical constants, constants.py:1-47. Decimal literals are exact rationals. *)
From Verif Require Import Common.

Definition T0 : R := 273.15.                       (* constants.py:15 *)
Definition Lf : R := 334000.                       (* LATENT_HEAT_OF_FUSION, constants.py:29 *)
Definition Lv : R := 2501000.                      (* LATENT_HEAT_OF_VAPORIZATION, constants.py:28 *)
Definition Ls : R := Lv + Lf.                      (* LATENT_HEAT_OF_SUBLIMATION, constants.py:30 *)
Definition ICE_DENSITY : R := 917.                 (* constants.py:36 *)
Definition WATER_DENSITY : R := 1000.              (* constants.py:35 *)
Definition SPEC_HEAT_CAP_ICE : R := 2100.          (* constants.py:25 *)
Definition SPEC_HEAT_CAP_WATER : R := 4180.        (* constants.py:26 *)
Definition SECONDS_PER_HOUR : R := 3600.           (* constants.py:4 *)
Definition GRAVITATIONAL_ACCELERATION : R := 9.80665.   (* constants.py:13 *)
Definition THERM_COND_AIR : R := 0.025.            (* constants.py:43 *)
Definition THERM_COND_ICE : R := 2.24.             (* constants.py:45 *)
Definition THERM_COND_WATER : R := 0.56.           (* constants.py:47 *)
Definition STEFAN_BOLTZMANN : R := 5.670374419 / 100000000. (* constants.py:32 *)
Definition VON_KARMAN : R := 0.40.                 (* constants.py:33 *)
Definition GAS_CONSTANT_DRY_AIR : R := 287.058.    (* constants.py:20 *)
Definition SPEC_HEAT_CAP_DRY_AIR : R := 1004.68506. (* constants.py:24 *)
Definition SPEC_GAS_CONSTANT_WATER_VAPOR : R := 461.52. (* constants.py:21 *)
Definition MOLAR_MASS_DRY_AIR : R := 0.02896968.   (* constants.py:17 *)
Definition MOLAR_MASS_WATER : R := 0.0180153.      (* constants.py:18 *)
Definition UNIVERSAL_GAS_CONSTANT : R := 8.314462618. (* constants.py:19 *)
Definition STANDARD_ATMOSPHERE : R := 101325.      (* constants.py:11 *)
Definition ATMOSPHERIC_LAPSE_RATE : R := 0.0065.   (* constants.py:12 *)
Definition STANDARD_SEA_LEVEL_TEMPERATURE : R := 15 + T0. (* constants.py:22 *)
Definition SOLAR_CONSTANT : R := 1366.1.           (* constants.py:9 *)
Definition HOURS_PER_DAY : R := 24.                (* constants.py:2 *)
Definition DAYS_PER_YEAR : R := 365.25.            (* constants.py:1 *)
