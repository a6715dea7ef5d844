(** Concrete runs of the cities *)
From Coq Require Import List Bool Arith ZArith String Lia.
Import ListNotations.
From Verif Require Import DataflowModel DataflowSpec LoopProofs CityModel CitySpec CityProofs CityProps CityTables.

(** waveforms of one number: the height of the signal, from 2 on there is a peak, from 3 on a PMap; 9 cannot be processed *)
Definition yes (v : nat) : bool := negb (v =? 0).
Definition no_effect (t : nat) (row : list nat) : option exc := None.
Definition both : list nat -> res (list nat) := fun l => match l with [a; b] => Ret [a; b] | _ => Raise TypeError end.
Definition four_of : list nat -> res (list nat) := fun l => match l with [a] => Ret [a; a; a; a] | _ => Raise TypeError end.
Definition three_of : list nat -> res (list nat) := fun l => match l with a :: _ => Ret [a; a; a] | _ => Raise TypeError end.
Definition first_of : list nat -> res nat := fun l => match l with a :: _ => if a =? 9 then Raise (OtherExc 7) else Ret a | _ => Raise TypeError end.
Definition at_least (n : nat) : list nat -> res nat := fun l => match l with a :: _ => Ret (if n <=? a then 1 else 0) | _ => Raise TypeError end.
Definition wf (event signal : nat) : @waveforms nat := {| w_pmt := signal; w_sipm := 5; w_run := 1; w_event := event; w_time := 100 + event; w_type := 0; w_channels := 0 |}.
Definition irene_of (range : option Z * option Z) (events : list (@waveforms nat)) :=
  city range (irene yes 0 no_effect both four_of three_of first_of first_of (at_least 2) first_of (at_least 3)) (map wf_item events).
Definition irene_program := irene_event yes no_effect both four_of three_of first_of first_of (at_least 2) first_of (at_least 3).

Example C73_hypotheses : gives 2 both /\ gives 4 four_of /\ gives 3 three_of.
Proof.
  repeat split; intros args out H; destruct args as [|a [|b [|c l]]]; cbn in H; try discriminate; injection H as <-; reflexivity.
Qed.

(** five events, the range takes the second to the fourth: one has no peaks, one has no PMap, one is written *)
Example C74_example : exists o, irene_of (Some 1, Some 4)%Z [wf 10 5; wf 11 1; wf 12 2; wf 13 3; wf 14 5] = inl o /\
  o_raised o = None /\
  results r_events_in (o_trace o) = [RCount 3] /\ results r_over_thr (o_trace o) = [RPassed 2 1] /\ results r_full_pmap (o_trace o) = [RPassed 1 1] /\
  results r_events_out (o_trace o) = [RCount 1] /\ results r_evtnum_list (o_trace o) = [RAcc (Args [13])] /\
  calls t_indices_filter (o_trace o) = [Args [11; 0]; Args [12; 1]; Args [13; 1]] /\ calls t_pmap_filter (o_trace o) = [Args [12; 0]; Args [13; 1]] /\
  calls t_pmaps (o_trace o) = [Args [3; 13]] /\ calls t_events (o_trace o) = [Args [1; 13; 113]] /\ calls t_trigger (o_trace o) = [Args [0; 0]] /\
  snd (for_each irene_program (py_slice_z (Some 1%Z) (Some 4%Z) None [wf 10 5; wf 11 1; wf 12 2; wf 13 3; wf 14 5])) = None.
Proof. eexists. split; [reflexivity|]. repeat split; reflexivity. Qed.

(** the third event cannot be processed: the first two are complete, nothing is written of the others, and the exception is raised *)
Example C73_failure_example : exists o, irene_of (None, None) [wf 10 5; wf 11 4; wf 12 9; wf 13 3] = inl o /\
  o_raised o = Some 7 /\ calls t_pmaps (o_trace o) = [Args [5; 10]; Args [4; 11]] /\ calls t_events (o_trace o) = [Args [1; 10; 110]; Args [1; 11; 111]] /\
  calls t_indices_filter (o_trace o) = [Args [10; 1]; Args [11; 1]] /\
  results r_events_in (o_trace o) = [RCount 3] /\ results r_events_out (o_trace o) = [RCount 2] /\ results r_evtnum_list (o_trace o) = [RAcc (Args [10; 11])].
Proof. eexists. split; [reflexivity|]. repeat split; reflexivity. Qed.
Example C73_range_example : irene_of (Some (-1), None)%Z [] = inr StartNegative.
Proof. reflexivity. Qed.
