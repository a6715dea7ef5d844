(** Model of the reading of simulated hits event by event in files before 2020 and of their conversion to a dictionary: io/mcinfo_io.py *)
From Verif Require Import Base McModel ReadModel.
Local Open Scope Z_scope.

(** a row of the table extents: the event and the indices of its last hit and of its last particle *)
Record oextent := { o_event : Z; o_hit : Z; o_part : Z }.
(** the exception NoParticleInfoInFile *)
Definition NoParticleInfoInFile : pyexc := Other 63.

(** table[i]; negative indices are not modelled *)
Definition item {A} (l : list A) (i : Z) : result A :=
  if i <? 0 then Err NotModelled else match nth_error l (Z.to_nat i) with Some a => Ok a | None => Err IndexError end.
(** while i <= last: rows.append(table[i]); i += 1 *)
Definition rows_up_to {A} (l : list A) (first last : Z) : result (list A) :=
  rmap (fun k => item l (first + Z.of_nat k)) (seq 0 (Z.to_nat (last + 1 - first))).
(** d[key] = value *)
Fixpoint put {V} (d : list (Z * V)) (k : Z) (v : V) : list (Z * V) :=
  match d with [] => [(k, v)] | (k', v') :: d => if k =? k' then (k', v) :: d else (k', v') :: put d k v end.

Section Old.
  Context {H P G : Type}.
  (** mcinfo_io.py 825-847 get_mc_info: the tables; the empty tables that stand for missing ones are empty lists *)
  Record mcinfo := { i_extents : list oextent; i_hits : list H; i_parts : list P; i_gens : list G }.
  (** mcinfo_io.py 825-847: get_mc_info *)
  Definition get_mc_info (m : mcinfo) : result mcinfo := match i_parts m with [] => Err NoParticleInfoInFile | _ => Ok m end.

  (** mcinfo_io.py 895-923: what is read when the row [i] of extents is that of the event *)
  Definition read_row (m : mcinfo) (i : nat) (row : oextent) (only_hits : bool) : result (list H * list P * list G) :=
    let previous := match i with O => None | S j => nth_error (i_extents m) j end in
    let ihit  := match previous with Some p => o_hit p + 1 | None => 0 end in
    let ipart := match previous with Some p => o_part p + 1 | None => 0 end in
    rbind (match i_hits m with [] => Ok [] | _ => rows_up_to (i_hits m) ihit (o_hit row) end) (fun hits =>
    if only_hits then Ok (hits, [], []) else
    rbind (rows_up_to (i_parts m) ipart (o_part row)) (fun parts =>
    rbind (match i_gens m with [] => Ok [] | _ => rbind (item (i_gens m) (Z.of_nat i)) (fun g => Ok [g]) end) (fun gens =>
    Ok (hits, parts, gens)))).
  (** mcinfo_io.py 881-925 read_mcinfo_evt: the rows of extents from [i] on are looked at until one has the event number;
      there is an IndexError after the last one. The limit of 10^9 rows is not modelled. *)
  Fixpoint search (m : mcinfo) (rows : list oextent) (i : nat) (event : Z) (only_hits : bool) : result (list H * list P * list G) :=
    match rows with
    | [] => Err IndexError
    | row :: rows => if o_event row =? event then read_row m i row only_hits else search m rows (S i) event only_hits
    end.
  (** mcinfo_io.py 881-925: read_mcinfo_evt *)
  Definition read_mcinfo_evt (m : mcinfo) (event : Z) (last_row : nat) (only_hits : bool) : result (list H * list P * list G) :=
    search m (skipn last_row (i_extents m)) last_row event only_hits.

  (** mcinfo_io.py 928-953 _read_mchit_info: the rows [i], [i+1]... of extents; [n] of them. A hit of the dictionary is the row it is made of. *)
  Fixpoint read_rows (m : mcinfo) (i n : nat) (d : list (Z * list H)) : result (list (Z * list H)) :=
    match n with
    | O => Ok d
    | S n =>
        match nth_error (i_extents m) i with
        | None => Ok d
        | Some row => rbind (read_mcinfo_evt m (o_event row) i true) (fun '(hits, _, _) => read_rows m (S i) n (put d (o_event row) hits))
        end
    end.
  (** with mcinfo_io.py 928-953 *)
  Definition read_mchit_info (m : mcinfo) (first last : nat) : result (list (Z * list H)) :=
    rbind (get_mc_info m) (fun m => read_rows m first (last - first)%nat []).
End Old.
Arguments mcinfo : clear implicits.

Section Cast.
  Context {H : Type}.
  (** a row of the table of hits: its event and hit identifiers and the rest *)
  Record hrow := { hr_event : Z; hr_id : Z; hr_hit : H }.
  (** mcinfo_io.py 575-577: evt_hits.groupby(level=2), hit.iloc[0] *)
  Definition cast_event (l : list hrow) : list H :=
    flat_map (fun i => match filter (fun h => hr_id h =? i) l with [] => [] | h :: _ => [hr_hit h] end) (sorted_events (map hr_id l)).
  (** mcinfo_io.py 557-578 cast_mchits_to_dict *)
  Definition cast_mchits_to_dict (l : list hrow) : list (Z * list H) :=
    map (fun e => (e, cast_event (filter (fun h => hr_event h =? e) l))) (sorted_events (map hr_event l)).
End Cast.
Arguments hrow : clear implicits.

Section Table.
  Context {H P G : Type}.
  (** mcinfo_io.py 510-554 load_mchits_dfold: the table of hits; [hid] is the column hit_indx *)
  Definition load_mchits_dfold (hid : H -> Z) (m : mcinfo H P G) : result (list (hrow H)) :=
    rbind (load_dfold (map (fun x => {| McModel.x_event := o_event x; McModel.x_last := o_hit x |}) (i_extents m)) (i_hits m)) (fun l =>
    Ok (map (fun '(h, e) => {| hr_event := e; hr_id := hid h; hr_hit := h |}) l)).
End Table.
