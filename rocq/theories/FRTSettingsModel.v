(** Frequency ride-through settings: FRT_initialize, check_LFRT_settings,
    check_HFRT_settings, the FRT_INSTANTANEOUS_TRIP option
    (/repo/pvder/DER_features.py:659-696 and 744-768), and show_RT_settings
    (614-656). *)
From Verif Require Import Base ConfigValues ConfigData ConfigModel.
Open Scope string_scope.

(** The ride-through settings of one DER, [RT_config].  Lines 672-673 make
    LFRT_dict and HFRT_dict the same objects as RT_config['LFRT'] and
    RT_config['HFRT'], so one dictionary is the whole state. *)
(** self.LFRT_dict[level][key] and self.HFRT_dict[level][key] *)
Definition read (rtc : dict) (n level key : string) : res pv :=
  do b <- dsub n rtc; do z <- pget level b; pget key z.
(** self.LFRT_dict[level][key] = v: the level must be there, the key need not *)
Definition write (rtc : dict) (n level key : string) (v : pv) : res dict :=
  do b <- dsub n rtc; do z <- pget level b;
  match b, z with
  | VDict b', VDict z' => Ok (dset n (VDict (dset level (VDict (dset key v z')) b')) rtc)
  | _, _ => Raise TypeError
  end.
(** one statement of the setter: copy a value onto itself *)
Definition rewrite_same (rtc : dict) (x : string * string * string) : res dict :=
  let '(n, l, k) := x in do v <- read rtc n l k; write rtc n l k v.

(** FRT_INSTANTANEOUS_TRIP setter, lines 752-768: when the option is set, 30 cycles
    are written under the key 't_LF_limit', also for the HFRT levels (line 758);
    otherwise every limit is copied from RT_config, i.e. onto itself. *)
Definition set_instantaneous (option : pv) (rtc : dict) : res dict :=
  if truthy option then
    foldR (fun r x => write r (fst x) (snd x) "t_LF_limit" (VFloat (1#2))) rtc
      [("LFRT", "1"); ("LFRT", "2"); ("HFRT", "1"); ("HFRT", "2")]
  else foldR rewrite_same rtc
      [("LFRT", "1", "t_LF_limit"); ("LFRT", "2", "t_LF_limit"); ("HFRT", "1", "t_HF_limit"); ("HFRT", "2", "t_HF_limit")].

(** check_LFRT_settings / check_HFRT_settings, lines 681-696 *)
Definition check_pair (rtc : dict) (n key : string) : res unit :=
  do b <- read rtc n "2" key; do a <- read rtc n "1" key;
  do qb <- num b; do qa <- num a;
  if qlt qa qb then Ok tt else Raise ValueError.

(** FRT_initialize, lines 659-678; returns the settings in force.  The enable and
    trip flags, all false, are those of RTModel.rt_init. *)
Definition FRT_initialize (rtc : dict) : res dict :=
  do _ <- dsub "LFRT" rtc; do _ <- dsub "HFRT" rtc;
  do d <- dsub "FRT_delays" rtc; do o <- pget "FRT_INSTANTANEOUS_TRIP" d;
  do r <- set_instantaneous o rtc;
  do _ <- check_pair r "LFRT" "F_LF";
  do _ <- check_pair r "HFRT" "F_HF";
  Ok r.

(** * show_RT_settings *)
(** What the method reads: the two per-DER copies of the voltage zones, the
    frequency settings, the flags, the delays, the reference voltage (per unit,
    and the factor Vbase as a plain number). *)
Record shown_der := ShownDER {
  sd_lv : dict; sd_hv : dict; sd_rtc : dict;
  sd_flags : string -> bool;               (* LVRT_ENABLE, LVRT_TRIP, ... *)
  sd_vref : Q; sd_vbase : Q; sd_fref : Q;
  sd_cessation : Q; sd_restore : Q }.
(** a printed item: a text heading, a flag, a number under a label (rounding to two
    or three decimals left out), or a zone with its four settings *)
Inductive item := Head (s : string) | Flag (label : string) (b : bool) | Num (label : string) (q : Q)
  | Zone (level : string) (V t tmin : Q) (mode : pv).
Definition zone_item (x : string * pv) : res item :=
  do V <- pget "V_threshold" (snd x); do t <- pget "t_threshold" (snd x);
  do m <- pget "t_min_ridethrough" (snd x); do mode <- pget "mode" (snd x);
  do V' <- num V; do t' <- num t; do m' <- num m; Ok (Zone (fst x) V' t' m' mode).
Fixpoint zone_items (out : list item) (l : dict) : list item * res unit :=
  match l with
  | [] => (out, Ok tt)
  | x :: r => match zone_item x with Ok i => zone_items (out ++ [i])%list r | Raise e => (out, Raise e) end
  end.
(** successive print calls; what was printed before an exception stays *)
Definition andthen (p : list item * res unit) (k : list item -> list item * res unit) : list item * res unit :=
  match snd p with Ok _ => k (fst p) | Raise e => p end.
Definition say (r : res (list item)) (out : list item) : list item * res unit :=
  match r with Ok l => ((out ++ l)%list, Ok tt) | Raise e => (out, Raise e) end.
Definition freq (rtc : dict) (level key : string) : res Q := do v <- read rtc "LFRT" level key; num v.

(** lines 614-656.  PER_UNIT only selects V_multiplier (lines 620-623), which is
    not used afterwards; 1/self.Vrms_ref is evaluated, so a zero reference raises
    ZeroDivisionError. *)
Definition show_RT_settings (d : shown_der) (settings_type : string) (PER_UNIT : bool) : list item * res unit :=
  if negb (existsb (String.eqb settings_type) ["LVRT"; "HVRT"; "LFRT"]) then ([], Raise ValueError)
  else if PER_UNIT && qeq (sd_vref d) 0 then ([], Raise ZeroDivisionError)
  else
    let delays out := say (Ok [Num "OUTPUT_CESSATION_DELAY" (sd_cessation d); Num "OUTPUT_RESTORE_DELAY" (sd_restore d)]) out in
    let zones n (z : dict) := fun out =>
      andthen (zone_items (out ++ [Head "Flags"; Flag (n ++ "_ENABLE") (sd_flags d (n ++ "_ENABLE"));
                     Flag (n ++ "_TRIP") (sd_flags d (n ++ "_TRIP"));
                     Flag (n ++ "_MOMENTARY_CESSATION") (sd_flags d (n ++ "_MOMENTARY_CESSATION"));
                     Head "Thresholds"; Num "Vrms_ref" (sd_vref d * sd_vbase d)])%list z) delays in
    let start := [Head settings_type] in
    if String.eqb settings_type "LVRT" then zones "LVRT" (sd_lv d) start
    else if String.eqb settings_type "HVRT" then zones "HVRT" (sd_hv d) start
    else
      andthen (say (do a <- freq (sd_rtc d) "1" "F_LF"; do b <- freq (sd_rtc d) "2" "F_LF";
           Ok [Num "f_ref" (sd_fref d); Num "F_LF1" a; Num "F_LF2" b]) start) (fun o1 =>
      andthen (say (do a <- freq (sd_rtc d) "1" "t_LF_limit"; do b <- freq (sd_rtc d) "2" "t_LF_limit";
           Ok [Num "t_LF1" a; Num "t_LF2" b]) o1) (fun o2 =>
      andthen (say (Ok [Head "Flags"; Flag "LFRT_ENABLE" (sd_flags d "LFRT_ENABLE"); Flag "LFRT_TRIP" (sd_flags d "LFRT_TRIP");
           Flag "FRT_INSTANTANEOUS_TRIP" (sd_flags d "FRT_INSTANTANEOUS_TRIP")]) o2) delays)).
