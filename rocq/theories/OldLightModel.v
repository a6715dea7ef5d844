(** Model of the reading of the light of simulation files before 2020: io/mcinfo_io.py and the source of buffy, cities/components.py.
    The tables extents, waveforms and sensor_positions are there *)
From Coq Require Import String.
From Verif Require Import Base ReadModel McModel SbinModel.
Local Open Scope string_scope.

(** a row of the table waveforms *)
Record wave := { w_sensor : Z; w_bin : Z; w_charge : Q }.
(** the configuration ([None]: there is no such table), the table extents with the column last_sns_data, the light and the numbers of the sensors with a position *)
Record ofile := { of_conf : option (list conf_row); of_ext : list extent; of_wf : list wave; of_pos : list Z }.

(** mcinfo_io.py 796-822 load_mcsensors_dfold *)
Definition load_mcsensors_dfold (f : ofile) : result (list sresp) :=
  rbind (load_dfold (of_ext f) (of_wf f)) (fun l => Ok (map (fun '(w, e) => {| r_event := e; r_sensor := w_sensor w; r_bin := w_bin w; r_charge := w_charge w |}) l)).

Section Light.
  Variable float : string -> option Q.
  Variable unit : string -> option Q.
  (** the numbers of the PMTs in the database *)
  Variable pmt_ids : list Z.
  (** for mcinfo_io.py 404-424 *)
  Definition is_pmt (id : Z) : bool := existsb (Z.eqb id) pmt_ids.

  (** mcinfo_io.py 404-424 load_mcsensor_positions, with the name of a database and a run: without positions the table is empty; [0] of an index without elements is an
      IndexError. When there are no sampling periods at all the exception is another one, and it is not modelled *)
  Definition load_mcsensor_positions (f : ofile) (bins : list (string * Q)) : result (list (Z * string)) :=
    match of_pos f with
    | [] => Ok []
    | ids =>
      match bins with
      | [] => Err NotModelled
      | _ =>
        match filter (fun n => contains "Pmt" n) (map fst bins), filter (fun n => negb (contains "Pmt" n)) (map fst bins) with
        | pmt :: _, sipm :: _ => Ok (map (fun id => (id, if is_pmt id then pmt else sipm)) ids)
        | _, _ => Err IndexError
        end
      end
    end.
  (** mcinfo_io.py 776-786 load_mcsensor_response_df, when the times are asked for. [db] is the name of the database; 0 is taken as no run *)
  Definition load_old_response (db : string) (run : Z) (f : ofile) : result (list stime) :=
    rbind (load_mcsensors_dfold f) (fun resp =>
    if (db =? "") || (run =? 0)%Z then Err AssertionError else
    match of_conf f with
    | None => Err (Other 36)
    | Some conf =>
      rbind (get_sensor_binning float unit true conf) (fun bins =>
      rbind (load_mcsensor_positions f bins) (fun pos =>
      Ok (convert_timebin_to_time resp bins pos)))
    end).
  (** mcinfo_io.py 305-307: the events are those of extents *)
  Definition old_events (f : ofile) : list Z := map x_event (of_ext f).
  (** components.py 535-565: one file of mcsensors_from_file *)
  Definition sensors_of_ofile (db : string) (run : Z) (f : ofile) : generated (Z * (list stime * list stime)) :=
    match load_old_response db run f with
    | Err e => ([], Some e)
    | Ok rows =>
      (map (fun ev => let of_event := filter (fun r => Z.eqb (s_event r) ev) rows in
                      (ev, (filter (fun r => is_pmt (s_sensor r)) of_event, filter (fun r => negb (is_pmt (s_sensor r))) of_event))) (old_events f), None)
    end.
End Light.
