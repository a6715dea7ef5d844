(** Model of the sampling periods of simulated sensors: io/mcinfo_io.py, detsim/sensor_utils.py, cities/buffy.py *)
From Verif Require Import Base ReadModel.
From Coq Require Import String Ascii.
Local Open Scope string_scope.

(** what follows [p] in a string that begins with it *)
Fixpoint starts (p s : string) : option string :=
  match p, s with
  | EmptyString, _ => Some s
  | String a p, String b s => if Ascii.eqb a b then starts p s else None
  | _, EmptyString => None
  end.
(** what follows the first [p] in a string; pandas str.contains (the patterns here have no special characters) *)
Fixpoint after (p s : string) : option string :=
  match starts p s with Some r => Some r | None => match s with EmptyString => None | String _ s => after p s end end.
(** for mcinfo_io.py 369-374 *)
Definition contains (p s : string) : bool := match after p s with Some _ => true | None => false end.
(** str.strip(chars) *)
Fixpoint lstrip (chars l : list ascii) : list ascii :=
  match l with c :: l' => if existsb (Ascii.eqb c) chars then lstrip chars l' else l | [] => [] end.
(** for mcinfo_io.py 684-718 *)
Definition strip (chars s : string) : string :=
  let set := list_ascii_of_string chars in string_of_list_ascii (rev (lstrip set (rev (lstrip set (list_ascii_of_string s))))).
(** str.split(): the words between blanks *)
Definition blank (c : ascii) : bool := existsb (Ascii.eqb c) (List.map ascii_of_nat [9; 10; 11; 12; 13; 28; 29; 30; 31; 32]%nat).
(** for mcinfo_io.py 351-376 *)
Fixpoint words_from (current : string) (s : string) : list string :=
  let flush := match current with "" => [] | _ => [current] end in
  match s with
  | EmptyString => flush
  | String c s => if blank c then (flush ++ words_from "" s)%list else words_from (current ++ String c "") s
  end.
(** for mcinfo_io.py 351-376 *)
Definition words (s : string) : list string := words_from "" s.

(** a row of the table configuration: param_key and param_value. A column file_index is not used. *)
Definition conf_row := (string * string)%type.
(** mcinfo_io.py 369-374: str.replace with .*[name].*_binning.* *)
Definition rename (name new key : string) : string :=
  match after name key with Some r => if contains "_binning" r then new else key | None => key end.
(** drop_duplicates and ~duplicated(): the first row of each key *)
Fixpoint first_rows (seen : list string) (l : list conf_row) : list conf_row :=
  match l with
  | [] => []
  | (k, v) :: l => if existsb (String.eqb k) seen then first_rows seen l else (k, v) :: first_rows (k :: seen) l
  end.
(** mcinfo_io.py 351-376 load_mcconfiguration *)
Definition load_mcconfiguration (old : bool) (cfg : list conf_row) : list conf_row :=
  if old then first_rows [] (List.map (fun '(k, v) => (rename "SiPM" "SiPM_binning" (rename "Pmt" "PmtR11410_binning" k), v)) cfg) else cfg.

Section Units.
  (** float() of a string, and system_of_units *)
  Variable float : string -> option Q.
  Variable unit : string -> option Q.
  (** mcinfo_io.py 715-716: the value and the unit; a value of less than two words is not modelled *)
  Definition width (v : string) : result Q :=
    match words v with
    | x :: u :: _ => match float x with None => Err ValueError | Some q => match unit u with None => Err AttributeError | Some k => Ok (q * k)%Q end end
    | _ => Err NotModelled
    end.
  (** mcinfo_io.py 684-718 get_sensor_binning *)
  Definition get_sensor_binning (old : bool) (cfg : list conf_row) : result (list (string * Q)) :=
    let bins := first_rows [] (filter (fun r => contains "binning" (fst r)) (load_mcconfiguration old cfg)) in
    rbind (rmap (fun '(k, v) => rbind (width v) (fun w => Ok (strip "_binning" k, w))) bins) (fun l =>
    Ok (filter (fun r => negb (contains "Geom" (fst r))) l)).
  (** sensor_utils.py 92-102 pmt_and_sipm_bin_width: .iloc[0] of the rows whose name contains Pmt or SiPM *)
  Definition first_like (p : string) (bins : list (string * Q)) : result Q :=
    match filter (fun r => contains p (fst r)) bins with r :: _ => Ok (snd r) | [] => Err IndexError end.
  (** sensor_utils.py 92-102: pmt_and_sipm_bin_width *)
  Definition pmt_and_sipm_bin_width (old : bool) (cfg : list conf_row) : result (Q * Q) :=
    rbind (get_sensor_binning old cfg) (fun bins =>
    match bins with
    | [] => Err NoSuchNodeError
    | _ => if existsb (fun r => Qle_bool (snd r) 0) bins then Err NoSuchNodeError else
           rbind (first_like "Pmt" bins) (fun p => rbind (first_like "SiPM" bins) (fun s => Ok (p, s)))
    end).
  (** a file: None when it cannot be read or has no configuration; otherwise its format and its configuration *)
  Definition sfile := option (bool * list conf_row).
  (** for buffy.py 165-174 *)
  Definition widths_of_file (f : sfile) : result (Q * Q) := match f with None => Err NoSuchNodeError | Some (old, cfg) => pmt_and_sipm_bin_width old cfg end.
  (** buffy.py 165-174 pmt_and_sipm_bin_width_safe_; HDF5ExtError is not told apart from NoSuchNodeError *)
  Fixpoint pmt_and_sipm_bin_width_safe (files : list sfile) : result (Q * Q) :=
    match files with
    | [] => Err NoSuchNodeError
    | f :: files => match widths_of_file f with Err (Other 36) => pmt_and_sipm_bin_width_safe files | r => r end
    end.
End Units.
