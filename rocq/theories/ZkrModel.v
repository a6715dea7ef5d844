(** Model of the files that dorothea leaves for zemrude: cities/dorothea.py 119-141, evm/nh5.py 125-154 and io/kdst_io.py 7-20, read with io/dst_io.py 19-51 and cities/components.py 447-451 *)
From Verif Require Import Base KrModel DorModel.
From Verif Require Import PeaksModel WfmModel DbModel CorrModel KmapModel ZemModel TevModel ZrunModel.
Local Open Scope Q_scope.

(** evm/nh5.py 125-154: the columns of DST/Events that zemrude reads. A row without an S1 has nan in S1e; the model of zemrude has no nan there. Nsipm is stored in 16 bits, so
    that the -999999 of an S2 without position wraps in the file; here it does not. Such a row has -999999 as R too. *)
Definition kdst_row (w : krrow) : result drow :=
  match w_S1e w with
  | None => Err NotModelled
  | Some s1e => Ok {| dr_kr := {| kX := w_X w; kY := w_Y w; kDT := w_DT w; kS2e := w_S2e w; ktime := w_time w |}; dr_event := KrModel.w_event w; dr_s1e := s1e; dr_s2t := w_S2t w; dr_r := w_R w; dr_z := w_Z w;
      dr_col := fun c => match c with S1w => w_S1w w | S1h => w_S1h w | S2h => w_S2h w | S2w => w_S2w w | S2q => w_S2q w | Nsipm => w_Nsipm w | Xrms => w_Xrms w | Yrms => w_Yrms w | Zrms => w_Zrms w end |}
  end.
(** io/dst_io.py 19-51: the table of one file; cities/components.py 447-451: the run number is that of its first event. A file without events has none: the IndexError of the code is the
    exception of a missing table in the model of zemrude. *)
Definition kdst_file (o : dout) : result zfile :=
  rbind (rmap kdst_row (do_rows o)) (fun rows => Ok {| zf_rows := Some rows; zf_run := match do_info o with (r, _, _) :: _ => Some r | [] => None end |}).
