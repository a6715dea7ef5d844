(** Model of invisible_cities/filters/s1s2_filter.py, filters/trigger_filters.py and of
    select_trigger_filter in cities/diomira.py *)
From Verif Require Import Base PeaksModel PmapioModel.
Local Open Scope nat_scope.

(** types/ic_types.py 61-64: minmax.__init__ *)
Definition mk_minmax (a b : Q) : result minmax := if Qle_bool a b then Ok {| mn := a; mx := b |} else Err AssertionError.
(** types/ic_types.py 78-79: minmax.__mul__ *)
Definition minmax_mul (m : minmax) (f : Q) : result minmax := mk_minmax (mn m * f)%Q (mx m * f)%Q.

(** s1s2_filter.py 12-34: S12SelectorOutput *)
Record selection := { passed : bool; s1_peaks : list bool; s2_peaks : list bool }.

(** s1s2_filter.py 36-43: __and__ *)
Definition sel_and (a b : selection) : result selection :=
  if negb (length (s1_peaks a) =? length (s1_peaks b)) || negb (length (s2_peaks a) =? length (s2_peaks b)) then Err ValueError
  else Ok {| passed := passed a && passed b; s1_peaks := map2 andb (s1_peaks a) (s1_peaks b); s2_peaks := map2 andb (s2_peaks a) (s2_peaks b) |}.
(** s1s2_filter.py 46-53: __or__ *)
Definition sel_or (a b : selection) : result selection :=
  if negb (length (s1_peaks a) =? length (s1_peaks b)) || negb (length (s2_peaks a) =? length (s2_peaks b)) then Err ValueError
  else Ok {| passed := passed a || passed b; s1_peaks := map2 orb (s1_peaks a) (s1_peaks b); s2_peaks := map2 orb (s2_peaks a) (s2_peaks b) |}.

(** the keyword arguments of S12Selector *)
Record limits := {
  s1_n : Q * Q; s1_e : Q * Q; s1_w : Q * Q; s1_h : Q * Q; s1_thr : Q;
  s2_n : Q * Q; s2_e : Q * Q; s2_w : Q * Q; s2_h : Q * Q; s2_nsipm : Q * Q; s2_thr : Q }.
(** the attributes of an S12Selector *)
Record selector := {
  sl_s1n : minmax; sl_s1e : minmax; sl_s1w : minmax; sl_s1h : minmax; sl_s1_ethr : Q;
  sl_s2n : minmax; sl_s2e : minmax; sl_s2w : minmax; sl_s2h : minmax; sl_nsi : minmax; sl_s2_ethr : Q }.

(** s1s2_filter.py 76-89: S12Selector.__init__ *)
Definition mk_selector (c : limits) : result selector :=
  rbind (mk_minmax (fst (s1_n c)) (snd (s1_n c))) (fun s1n =>
  rbind (mk_minmax (fst (s1_e c)) (snd (s1_e c))) (fun s1e =>
  rbind (mk_minmax (fst (s1_w c)) (snd (s1_w c))) (fun s1w =>
  rbind (mk_minmax (fst (s1_h c)) (snd (s1_h c))) (fun s1h =>
  rbind (mk_minmax (fst (s2_n c)) (snd (s2_n c))) (fun s2n =>
  rbind (mk_minmax (fst (s2_e c)) (snd (s2_e c))) (fun s2e =>
  rbind (mk_minmax (fst (s2_w c)) (snd (s2_w c))) (fun s2w =>
  rbind (mk_minmax (fst (s2_h c)) (snd (s2_h c))) (fun s2h =>
  rbind (mk_minmax (fst (s2_nsipm c)) (snd (s2_nsipm c))) (fun nsi =>
  Ok {| sl_s1n := s1n; sl_s1e := s1e; sl_s1w := s1w; sl_s1h := s1h; sl_s1_ethr := s1_thr c;
        sl_s2n := s2n; sl_s2e := s2e; sl_s2w := s2w; sl_s2h := s2h; sl_nsi := nsi; sl_s2_ethr := s2_thr c |}))))))))).

(** s1s2_filter.py 92-107: valid_peak; a minmax is true as a condition *)
Definition valid_peak (p : peak) (thr : Q) (energy width hgt : minmax) (nsipm : option minmax) : bool :=
  let f1 := contains energy (energy_above_threshold p thr) in
  let f2 := contains width (width_above_threshold p thr) in
  let f3 := contains hgt (height p) in
  let f4 := match nsipm with Some m => contains m (qn (length (r_ids (p_sipms p)))) | None => true end in
  f1 && f2 && f3 && f4.

(** s1s2_filter.py 110-127: select_valid_peaks *)
Definition select_valid_peaks (l : list peak) (thr : Q) (energy width hgt : minmax) (nsipm : option minmax) : list bool :=
  map (fun p => valid_peak p thr energy width hgt nsipm) l.
(** s1s2_filter.py 129-152: select_s1, select_s2 *)
Definition select_s1 (s : selector) (l : list peak) : list bool := select_valid_peaks l (sl_s1_ethr s) (sl_s1e s) (sl_s1w s) (sl_s1h s) None.
(** s1s2_filter.py 141-152: select_s2 *)
Definition select_s2 (s : selector) (l : list peak) : list bool := select_valid_peaks l (sl_s2_ethr s) (sl_s2e s) (sl_s2w s) (sl_s2h s) (Some (sl_nsi s)).

(** np.count_nonzero *)
Definition count_nonzero (l : list bool) : nat := length (filter (fun b => b) l).

(** s1s2_filter.py 173-190: pmap_filter *)
Definition pmap_filter (s : selector) (pm : pmap) : selection :=
  let a := select_s1 s (s1s pm) in
  let b := select_s2 s (s2s pm) in
  {| passed := contains (sl_s1n s) (qn (count_nonzero a)) && contains (sl_s2n s) (qn (count_nonzero b)); s1_peaks := a; s2_peaks := b |}.

(** evm/pmaps.py 39 and 41: the attributes total_energy and width *)
Definition total_energy (p : peak) : Q := energy_above_threshold p 0.
(** for trigger_filters.py 10-31: TriggerFilter *)
Definition peak_width (p : peak) : Q := width_above_threshold p 0.

(** TriggerParams *)
Record trigger_params := { tp_min_channels : Z; tp_charge : minmax; tp_height : minmax; tp_width : minmax }.

(** a < x <= b *)
Definition above_upto (m : minmax) (x : Q) : bool := Qltb (mn m) x && Qle_bool x (mx m).

(** trigger_filters.py 10-31: TriggerFilter. The dictionary of the peaks of each channel is a list of pairs. Loops [for peak] and [for channel];
    the boolean says whether the function has returned True, the number is n_channels_fired *)
Fixpoint trigger_peaks (tp : trigger_params) (l : list peak) (n : Z) : bool * Z :=
  match l with
  | [] => (false, n)
  | p :: l =>
    if above_upto (tp_width tp) (peak_width p) then
      if above_upto (tp_charge tp) (total_energy p) then
        if above_upto (tp_height tp) (height p) then
          let n := (n + 1)%Z in
          if (n =? tp_min_channels tp)%Z then (true, n) else trigger_peaks tp l n
        else trigger_peaks tp l n
      else trigger_peaks tp l n
    else trigger_peaks tp l n
  end.
(** for trigger_filters.py 12-30: trigger_filter *)
Fixpoint trigger_channels (tp : trigger_params) (d : list (nat * list peak)) (n : Z) : bool :=
  match d with
  | [] => false
  | (_, l) :: d => let '(fired, n) := trigger_peaks tp l n in if fired then true else trigger_channels tp d n
  end.
(** trigger_filters.py 12-30: trigger_filter *)
Definition trigger_filter (tp : trigger_params) (d : list (nat * list peak)) : bool := trigger_channels tp d 0.

(** the trigger parameters of a configuration *)
Record trigger_conf := { tc_min_channels : Z; tc_ratio : Q; tc_height : Q * Q; tc_charge : Q * Q; tc_width : Q * Q }.
(** diomira.py 180-204: select_trigger_filter; [None] is trigger_type = None, [Some (true, c)] the type "S2", [Some (false, c)] another one.
    The filter that always passes is applied to None. *)
Definition select_trigger_filter (t : option (bool * trigger_conf)) : result (list (nat * list peak) -> bool) :=
  match t with
  | None => Ok (fun _ => true)
  | Some (true, c) =>
    rbind (mk_minmax (fst (tc_height c)) (snd (tc_height c))) (fun h =>
    rbind (mk_minmax (fst (tc_charge c)) (snd (tc_charge c))) (fun q =>
    rbind (mk_minmax (fst (tc_width c)) (snd (tc_width c))) (fun w =>
    rbind (minmax_mul q (tc_ratio c)) (fun q' =>
    rbind (minmax_mul h (tc_ratio c)) (fun h' =>
    Ok (trigger_filter {| tp_min_channels := tc_min_channels c; tp_charge := q'; tp_height := h'; tp_width := w |}))))))
  | Some (false, _) => Err ValueError
  end.
