(** Validation of the models of offsets, guessed parameter types, options of time conversions and the
    base class of adapters: the cases of the repository's own tests.  Examples on literals, not
    theorems.  /repo/tests/unit/test_scmdataframe/test_offsets.py, test_parameter_type.py (with
    tests/test_data/magicc7_parameter_types.txt) and test_time.py. *)
From Coq Require Import String Ascii List ZArith Bool.
From Verif Require Import Base Units TimeModel Regex ParameterType Civil Offsets Gases.
Import ListNotations.
Local Open Scope string_scope.
Local Open Scope list_scope.

(** ** Offsets *)
(** test_offsets.py 11-17 *)
Example invalid_offsets : Forall (fun rule => to_offset rule = Err EValueError)
  ["B"; "C"; "BM"; "BMS"; "CBM"; "CBMS"; "BQ"; "BSS"; "BA"; "BAS"; "RE"; "BH"; "CBH"].
Proof. repeat (apply Forall_cons; [reflexivity|]). apply Forall_nil. Qed.
(** 20-38 *)
Definition day : Z := time_of 2001 2 12 0.
Example annual_start : exists o, to_offset "AS" = Ok o /\ apply o day = time_of 2002 1 1 0 /\
  rollback o day = time_of 2001 1 1 0 /\ rollforward o day = time_of 2002 1 1 0.
Proof. eexists. repeat split. Qed.
(** 41-59 *)
Example month_start : exists o, to_offset "MS" = Ok o /\ apply o day = time_of 2001 3 1 0 /\
  rollback o day = time_of 2001 2 1 0 /\ rollforward o day = time_of 2001 3 1 0.
Proof. eexists. repeat split. Qed.
(** 62-73 *)
Example range : exists o, to_offset "AS" = Ok o /\ generate_range (time_of 2000 2 12 0) (time_of 2001 2 12 0) o =
  Ok [time_of 2000 1 1 0; time_of 2001 1 1 0; time_of 2002 1 1 0].
Proof. eexists. repeat split. Qed.

(** ** Parameter types *)
Definition guesses (unit : option string) (t : ptype) (names : list string) : bool :=
  forallb (fun n => match guess_parameter_type std_env n unit with Ok t' => ptype_eqb t' t | Err _ => false end) names.
(** test_parameter_type.py 20-28: the names of MAGICC *)
(** One line of the file lacks a comma; its missing last field is NaN, which is true *)
Definition averages : list string := [
    "Radiative Forcing|CO2_W / m^2";
    "CH4T_EMIS"; "CO2I_GWPEMIS"; "CO2I_INCLCH4OX_EMIS"; "CO2T_EMIS"; "Emissions|CO2|MAGICC AFOLU"; "Emissions|CO2|MAGICC Fossil and Industrial";
    "Land to Air Flux|CO2|MAGICC Permafrost"; "N2OT_EMIS"; "ALLGHGS_GWPEMIS"; "C2F6_GWPEMIS"; "C3F8_GWPEMIS"; "C4F10_GWPEMIS"; "C5F12_GWPEMIS";
    "C6F14_GWPEMIS"; "C7F16_GWPEMIS"; "C8F18_GWPEMIS"; "CC4F8_GWPEMIS"; "CCL4_GWPEMIS"; "CF4_GWPEMIS"; "CFC113_GWPEMIS"; "CFC114_GWPEMIS";
    "CFC115_GWPEMIS"; "CFC11_GWPEMIS"; "CFC12_GWPEMIS"; "CH2CL2_GWPEMIS"; "CH3BR_GWPEMIS"; "CH3CCL3_GWPEMIS"; "CH3CL_GWPEMIS"; "CH4B_GWPEMIS";
    "CH4I_GWPEMIS"; "CH4N_GWPEMIS"; "CHCL3_GWPEMIS"; "CO2B_GWPEMIS"; "FGASSUM_GWPEMIS"; "HALON1202_GWPEMIS"; "HALON1211_GWPEMIS";
    "HALON1301_GWPEMIS"; "HALON2402_GWPEMIS"; "HCFC141B_GWPEMIS"; "HCFC142B_GWPEMIS"; "HCFC22_GWPEMIS"; "HFC125_GWPEMIS"; "HFC134A_GWPEMIS";
    "HFC143A_GWPEMIS"; "HFC152A_GWPEMIS"; "HFC227EA_GWPEMIS"; "HFC236FA_GWPEMIS"; "HFC23_GWPEMIS"; "HFC245FA_GWPEMIS"; "HFC32_GWPEMIS";
    "HFC365MFC_GWPEMIS"; "HFC4310_GWPEMIS"; "KYOTOGHGS_GWPEMIS"; "KYOTOGHGS_NOCO2B_GWPEMIS"; "MHALOSUM_GWPEMIS"; "N2OB_GWPEMIS"; "N2OI_GWPEMIS";
    "N2ON_GWPEMIS"; "NF3_GWPEMIS"; "SF6_GWPEMIS"; "SO2F2_GWPEMIS"; "SUMCO2N2OCH4_GWPEMIS"; "SUMCO2N2OCH4_NOCOB_GWPEMIS"; "Emissions|CCl4";
    "Emissions|CFC11"; "Emissions|CFC113"; "Emissions|CFC114"; "Emissions|CFC115"; "Emissions|CFC12"; "Emissions|CH2Cl2"; "Emissions|CH3Br";
    "Emissions|CH3CCl3"; "Emissions|CH3Cl"; "Emissions|CHCl3"; "Emissions|HCFC141b"; "Emissions|HCFC142b"; "Emissions|HCFC22"; "Emissions|Halon1202";
    "Emissions|Halon1211"; "Emissions|Halon1301"; "Emissions|Halon2402"; "Emissions|BC|MAGICC AFOLU"; "Emissions|BC|MAGICC Fossil and Industrial";
    "Emissions|NMVOC|MAGICC AFOLU"; "Emissions|NMVOC|MAGICC Fossil and Industrial"; "Emissions|OC|MAGICC AFOLU";
    "Emissions|OC|MAGICC Fossil and Industrial"; "CH4CLATHRATE_EMIS"; "CH4N_EMIS"; "CH4PF_EMIS"; "Emissions|CH4|MAGICC AFOLU";
    "Emissions|CH4|MAGICC Fossil and Industrial"; "Emissions|CO|MAGICC AFOLU"; "Emissions|CO|MAGICC Fossil and Industrial";
    "Emissions|NH3|MAGICC AFOLU"; "Emissions|NH3|MAGICC Fossil and Industrial"; "Emissions|NOx|MAGICC AFOLU";
    "Emissions|NOx|MAGICC Fossil and Industrial"; "NOXAIRINSCEN_EMIS"; "NOXAIRNEW_EMIS"; "Emissions|N2O|MAGICC AFOLU";
    "Emissions|N2O|MAGICC Fossil and Industrial"; "N2ON_EMIS"; "Emissions|SOx|MAGICC AFOLU"; "Emissions|SOx|MAGICC Fossil and Industrial";
    "SOXN_EMIS"; "AIR_CIRRUS_RF"; "AIR_CONTRAIL_RF"; "AIR_H2O_RF"; "BIOMASSAER_SRF"; "CH4_EFFRF"; "CLOUD_ALBEDO_EFFRF"; "CLOUD_ALBEDO_RF";
    "CLOUD_COVER_EFFRF"; "CLOUD_COVER_RF"; "CLOUD_TOT_EFFRF"; "CLOUD_TOT_SRF"; "CO2CH4N2O_EFFRF"; "CO2CH4N2O_SRF"; "CO2_EFFRF"; "GHG_EFFRF";
    "GHG_PRECIP_PEFFRF"; "GHG_SRF"; "HALOSUM_RF"; "HEATUPTAKE_EBALANCE_TOTAL"; "KYOTOGHG_EFFRF"; "N2O_EFFRF"; "NH3T_RF"; "NOXT_RF";
    "Radiative Forcing"; "Radiative Forcing|Aerosols|Direct Effect"; "Radiative Forcing|Aerosols|Indirect Effect";
    "Radiative Forcing|Aerosols|MAGICC AFOLU"; "Radiative Forcing|Anthropogenic"; "Radiative Forcing|BC|MAGICC AFOLU";
    "Radiative Forcing|BC|MAGICC Fossil and Industrial"; "Radiative Forcing|Black Carbon on Snow"; "Radiative Forcing|C2F6";
    "Radiative Forcing|C3F8"; "Radiative Forcing|C4F10"; "Radiative Forcing|C5F12"; "Radiative Forcing|C6F14"; "Radiative Forcing|C7F16";
    "Radiative Forcing|C8F18"; "Radiative Forcing|CC4F8"; "Radiative Forcing|CCl4"; "Radiative Forcing|CF4"; "Radiative Forcing|CFC11";
    "Radiative Forcing|CFC113"; "Radiative Forcing|CFC114"; "Radiative Forcing|CFC115"; "Radiative Forcing|CFC12"; "Radiative Forcing|CH2Cl2";
    "Radiative Forcing|CH3Br"; "Radiative Forcing|CH3CCl3"; "Radiative Forcing|CH3Cl"; "Radiative Forcing|CH4";
    "Radiative Forcing|CH4 Oxidation Stratospheric H2O"; "Radiative Forcing|CHCl3"; "Radiative Forcing|CO2_CH4 and N2O"; "Radiative Forcing|Extra";
    "Radiative Forcing|F Gases"; "Radiative Forcing|Greenhouse Gases"; "Radiative Forcing|Greenhouse Gases|Kyoto Gases";
    "Radiative Forcing|HCFC141b"; "Radiative Forcing|HCFC142b"; "Radiative Forcing|HCFC22"; "Radiative Forcing|HFC125"; "Radiative Forcing|HFC134a";
    "Radiative Forcing|HFC143a"; "Radiative Forcing|HFC152a"; "Radiative Forcing|HFC227ea"; "Radiative Forcing|HFC23"; "Radiative Forcing|HFC236fa";
    "Radiative Forcing|HFC245fa"; "Radiative Forcing|HFC32"; "Radiative Forcing|HFC365mfc"; "Radiative Forcing|HFC4310";
    "Radiative Forcing|Halon1202"; "Radiative Forcing|Halon1211"; "Radiative Forcing|Halon1301"; "Radiative Forcing|Halon2402";
    "Radiative Forcing|Land-use Change"; "Radiative Forcing|Mineral Dust"; "Radiative Forcing|Montreal Protocol Halogen Gases";
    "Radiative Forcing|N2O"; "Radiative Forcing|NF3"; "Radiative Forcing|NH3|MAGICC AFOLU"; "Radiative Forcing|NH3|MAGICC Fossil and Industrial";
    "Radiative Forcing|NOx|MAGICC AFOLU"; "Radiative Forcing|NOx|MAGICC Fossil and Industrial"; "Radiative Forcing|OC|MAGICC AFOLU";
    "Radiative Forcing|OC|MAGICC Fossil and Industrial"; "Radiative Forcing|SF6"; "Radiative Forcing|SO2F2"; "Radiative Forcing|SOx|MAGICC AFOLU";
    "Radiative Forcing|SOx|MAGICC Fossil and Industrial"; "Radiative Forcing|Solar"; "Radiative Forcing|Stratospheric Ozone";
    "Radiative Forcing|Tropospheric Ozone"; "Radiative Forcing|Volcanic"; "TOTAER_DIR_EFFRF"; "TOTAER_DIR_SRF"; "TOTAL_ANTHRO_EFFRF";
    "TOTAL_ANTHRO_SRF"; "TOTAL_EFFRF"; "TOTAL_INCLVOLCANIC_EFFRF"; "TOTAL_INCLVOLCANIC_SRF"; "TOTAL_RF"; "TOTAL_SRF"; "Emissions|C2F6";
    "Emissions|C3F8"; "Emissions|C4F10"; "Emissions|C5F12"; "Emissions|C6F14"; "Emissions|C7F16"; "Emissions|C8F18"; "Emissions|CC4F8";
    "Emissions|CF4"; "Emissions|HFC125"; "Emissions|HFC134a"; "Emissions|HFC143a"; "Emissions|HFC152a"; "Emissions|HFC227ea"; "Emissions|HFC23";
    "Emissions|HFC236fa"; "Emissions|HFC245fa"; "Emissions|HFC32"; "Emissions|HFC365mfc"; "Emissions|HFC4310"; "Emissions|NF3"; "Emissions|SF6";
    "Emissions|SO2F2"].
Definition points : list string := [
    "REALIZED_WARMING"; "PFTHAWED_AREA"; "GROUND_TEMP"; "Ocean Temperature|Layer 1"; "Ocean Temperature|Layer 10"; "Ocean Temperature|Layer 11";
    "Ocean Temperature|Layer 12"; "Ocean Temperature|Layer 13"; "Ocean Temperature|Layer 14"; "Ocean Temperature|Layer 15";
    "Ocean Temperature|Layer 16"; "Ocean Temperature|Layer 17"; "Ocean Temperature|Layer 18"; "Ocean Temperature|Layer 19";
    "Ocean Temperature|Layer 2"; "Ocean Temperature|Layer 20"; "Ocean Temperature|Layer 21"; "Ocean Temperature|Layer 22";
    "Ocean Temperature|Layer 23"; "Ocean Temperature|Layer 24"; "Ocean Temperature|Layer 25"; "Ocean Temperature|Layer 26";
    "Ocean Temperature|Layer 27"; "Ocean Temperature|Layer 28"; "Ocean Temperature|Layer 29"; "Ocean Temperature|Layer 3";
    "Ocean Temperature|Layer 30"; "Ocean Temperature|Layer 31"; "Ocean Temperature|Layer 32"; "Ocean Temperature|Layer 33";
    "Ocean Temperature|Layer 34"; "Ocean Temperature|Layer 35"; "Ocean Temperature|Layer 36"; "Ocean Temperature|Layer 37";
    "Ocean Temperature|Layer 38"; "Ocean Temperature|Layer 39"; "Ocean Temperature|Layer 4"; "Ocean Temperature|Layer 40";
    "Ocean Temperature|Layer 41"; "Ocean Temperature|Layer 42"; "Ocean Temperature|Layer 43"; "Ocean Temperature|Layer 44";
    "Ocean Temperature|Layer 45"; "Ocean Temperature|Layer 46"; "Ocean Temperature|Layer 47"; "Ocean Temperature|Layer 48";
    "Ocean Temperature|Layer 49"; "Ocean Temperature|Layer 5"; "Ocean Temperature|Layer 50"; "Ocean Temperature|Layer 6";
    "Ocean Temperature|Layer 7"; "Ocean Temperature|Layer 8"; "Ocean Temperature|Layer 9"; "SURFACE_ANNUALMEANTEMP"; "SURFACE_ANNUALMEAN_MIXLTEMP";
    "SURFACE_EQUILIBRIUMTEMP"; "SURFACE_MIXEDLAYERTEMP"; "Surface Temperature"; "SLR_SEMIEMPI_RATE";
    "SLR_SEMIEMPI_TOT"; "SLR_AIS_SID"; "SLR_AIS_SMB"; "SLR_EXPANSION"; "SLR_GIS_SID"; "SLR_GIS_SMB"; "SLR_GL"; "SLR_LANDWATER"; "SLR_TOT";
    "ZEROED_SLR_AIS_SID"; "ZEROED_SLR_AIS_SMB"; "ZEROED_SLR_EXPANSION"; "ZEROED_SLR_GIS_SID"; "ZEROED_SLR_GIS_SMB"; "ZEROED_SLR_GL";
    "ZEROED_SLR_LANDWATER"; "ZEROED_SLR_TOT"; "Atmospheric Concentrations|CH4"; "Atmospheric Concentrations|N2O"; "Atmospheric Concentrations|CO2";
    "PCO2S_CONC"; "Atmospheric Concentrations|C2F6"; "Atmospheric Concentrations|C3F8"; "Atmospheric Concentrations|C4F10";
    "Atmospheric Concentrations|C5F12"; "Atmospheric Concentrations|C6F14"; "Atmospheric Concentrations|C7F16"; "Atmospheric Concentrations|C8F18";
    "Atmospheric Concentrations|CC4F8"; "Atmospheric Concentrations|CCl4"; "Atmospheric Concentrations|CF4"; "Atmospheric Concentrations|CFC11";
    "Atmospheric Concentrations|CFC113"; "Atmospheric Concentrations|CFC114"; "Atmospheric Concentrations|CFC115";
    "Atmospheric Concentrations|CFC12"; "Atmospheric Concentrations|CFC12 Equivalent|Montreal Protocol Halogen Gases";
    "Atmospheric Concentrations|CH2Cl2"; "Atmospheric Concentrations|CH3Br"; "Atmospheric Concentrations|CH3CCl3";
    "Atmospheric Concentrations|CH3Cl"; "Atmospheric Concentrations|CHCl3"; "Atmospheric Concentrations|HCFC141b";
    "Atmospheric Concentrations|HCFC142b"; "Atmospheric Concentrations|HCFC22"; "Atmospheric Concentrations|HFC125";
    "Atmospheric Concentrations|HFC134a"; "Atmospheric Concentrations|HFC134a Equivalent|F Gases"; "Atmospheric Concentrations|HFC143a";
    "Atmospheric Concentrations|HFC152a"; "Atmospheric Concentrations|HFC227ea"; "Atmospheric Concentrations|HFC23";
    "Atmospheric Concentrations|HFC236fa"; "Atmospheric Concentrations|HFC245fa"; "Atmospheric Concentrations|HFC32";
    "Atmospheric Concentrations|HFC365mfc"; "Atmospheric Concentrations|HFC4310"; "Atmospheric Concentrations|Halon1202";
    "Atmospheric Concentrations|Halon1211"; "Atmospheric Concentrations|Halon1301"; "Atmospheric Concentrations|Halon2402";
    "Atmospheric Concentrations|NF3"; "Atmospheric Concentrations|SF6"; "Atmospheric Concentrations|SO2F2"; "EESC_CONC"; "ESBR_CONC"; "ESC_CONC"].
Example guess_without_units : guesses (Some "") AVERAGE_TIMESERIES averages = true /\ guesses (Some "") POINT_TIMESERIES points = true.
Proof. vm_compute. split; reflexivity. Qed.
(** 31-40 *)
Example guess_names : guesses (Some "") AVERAGE_TIMESERIES ["ALLGHGS_GWPEMIS"; "ALLGHGS_SRF"; "Emissions|HFC245fa"] = true /\
  guesses (Some "") POINT_TIMESERIES ["Atmospheric Concentrations|C2F6"] = true.
Proof. vm_compute. split; reflexivity. Qed.
(** 7-17, for the units of the table that the modelled registry contains; the type does not depend on the name *)
Example guess_with_units :
  forallb (fun u => guesses (Some u) AVERAGE_TIMESERIES ["TEMP"; "Emissions|CO2"]) ["Gt CO2 / yr"; "Gt C / yr"; "Mt N / yr"] = true /\
  forallb (fun u => guesses (Some u) POINT_TIMESERIES ["TEMP"; "Emissions|CO2"]) ["ppt"; "ppm"; "ppb"] = true.
Proof. split; lazy; reflexivity. Qed.

(** ** Options *)
(** test_time.py *)
Example options : from_extrapolation_type (AStr "constant") = Ok XCONSTANT /\ from_extrapolation_type (AStr "nOne") = Ok XNONE /\
  from_extrapolation_type (AStr "LINEAR") = Ok XLINEAR /\ from_interpolation_type (AStr "linear") = Ok ILINEAR.
Proof. repeat split. Qed.
