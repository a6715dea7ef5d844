(** C70: the hits of an event *)
From Verif Require Import Base PeaksModel PeaksSpec PeaksMore PeaksThr PmapioModel PmapioProofs FiltersModel HitsModel HitsProofs HitsProps KrModel KrProps SophModel SophSpec SophPeak.
From Coq Require Import NArith.
Local Open Scope Q_scope.

Lemma to_uint16_small n : (N.of_nat n < 65536)%N -> to_uint16 n = n.
Proof. intros H. unfold to_uint16. rewrite N.mod_small by assumption. apply Nat2N.id. Qed.
Lemma map_concat {A B} (f : A -> B) l : map f (concat l) = concat (map (map f) l).
Proof. induction l as [|a l IH]; [reflexivity|]. cbn. now rewrite map_app, IH. Qed.
Lemma Forall2_map2_seq {A B} (P : nat -> B -> Prop) (R : nat -> A -> Prop) (f : nat -> A -> B) l g : Forall2 R l g -> (forall k a, In k l -> R k a -> P k (f k a)) -> Forall2 P l (map2 f l g).
Proof. intros F. induction F as [|k a l g H F IH]; intros HP; [constructor|]. cbn. constructor; [apply HP; [now left|assumption]|]. apply IH. intros. apply HP; [now right|assumption]. Qed.
Lemma in_map2 {A B C} (f : A -> B -> C) l m c : In c (map2 f l m) -> exists a b, In a l /\ In b m /\ c = f a b.
Proof. revert m. induction l as [|a l IH]; intros [|b m] H; try easy. destruct H as [<-|H]; [exists a, b; cbn; auto|]. destruct (IH _ H) as (a' & b' & Ha & Hb & ->). exists a', b'. cbn. auto. Qed.

(** One group of hits for each selected S2, in order. Its samples are those of the peak after rebinning, which C29 describes. *)
Theorem C70_hits_of_an_event xys v noise sw ct greco md thr pm sel ev ts t0 chosen :
  picked 0 (s2_peaks sel) (s2s pm) chosen -> chosen <> [] -> start_of_drift pm sel t0 -> (N.of_nat (length (s2s pm)) <= 65536)%N ->
  0 < thr -> (forall ids qs w, length ids = length qs -> length (noise ids qs w) = length qs) -> global_ends greco ->
  (forall i p, In (i, p) chosen -> usable xys p) ->
  exists hits groups,
    sipms_as_hits xys v noise sw ct greco (fst (args_of md)) (snd (args_of md)) thr pm sel ev ts = Ok hits /\ hits = concat groups /\
    Forall (fun h => q_event h = ev /\ q_time h == ts / 1000) hits /\
    Forall2 (fun '(i, p) hs => exists p', rebin_peak p md = Ok p' /\ hits_of_peak xys v t0 (charge_of ct noise sw) greco thr i p' hs) chosen groups.
Proof.
  intros Hp Hne Ht Hmax Hthr Hnoise Hg Hu.
  assert (Hl : forall ids qs w, length ids = length qs -> length (charge_of ct noise sw ids qs w) = length qs) by (intros; unfold charge_of; destruct ct; auto).
  unfold sipms_as_hits, all_hits. rewrite (start_found _ _ _ Ht). cbn [rbind]. rewrite (picked_is _ _ _ Hp).
  assert (Hr : forall ip, In ip chosen -> exists hs, (let '(i, p) := ip in peak_hits xys v noise sw ct greco (fun ps qs e => sipms_above_threshold ps qs thr e) (fst (args_of md)) (snd (args_of md)) ev ts t0 i p) = Ok hs /\
     let '(i, p) := ip in Forall (fun h => q_event h = ev /\ q_time h == ts / 1000) (map as_uint16 hs) /\ exists p', rebin_peak p md = Ok p' /\ hits_of_peak xys v t0 (charge_of ct noise sw) greco thr i p' (map as_uint16 hs)).
  { intros [i p] Hin. pose proof (Hu i p Hin) as (Hc & Hn & Hi).
    destruct (rebin_peak_spec p md Hc) as (p' & Er & Hc' & _ & Ei & _).
    assert (Hu' : usable xys p') by (unfold usable; rewrite Ei; auto).
    destruct (picked_range _ _ _ _ _ _ Hp Hin) as [Hrange _].
    assert (Hi16 : to_uint16 i = i) by (apply to_uint16_small; lia).
    destruct (peak_hits_ok xys v noise sw ct greco (fun ps qs e => sipms_above_threshold ps qs thr e) (fst (args_of md)) (snd (args_of md)) ev ts t0 i p p'
       (fun ps k hs => sipms_above_threshold ps (charges_at (charge_of ct noise sw) p' k) thr (energy_at p' k) = Ok hs)) as (xp & yp & ps & groups & Fps & Fg & Hxy & E).
    - now rewrite rebin_any_args.
    - assumption.
    - assumption.
    - intros ps k F _. destruct (C17_slice_energy_shared ps (charges_at (charge_of ct noise sw) p' k) thr (energy_at p' k)) as (hs & E & _).
      + unfold charges_at. destruct Hc' as (_ & _ & _ & _ & _ & _ & Is & _). rewrite Hl; rewrite map_length; [|assumption]. rewrite <- Is. symmetry. exact (Forall2_len _ _ _ F).
      + intros. lra.
      + exists hs. auto.
    - rewrite E. eexists. split; [reflexivity|]. split.
      + apply Forall_forall. intros h Hh. apply in_map_iff in Hh. destruct Hh as (h0 & <- & Hh). apply in_concat in Hh. destruct Hh as (hs & Hhs & Hh). apply in_map2 in Hhs.
        destruct Hhs as (k & g & _ & _ & ->). apply in_map_iff in Hh. destruct Hh as (h & <- & _). cbn [q_event q_time as_uint16]. split; [reflexivity|field].
      + exists p'. split; [assumption|]. split; [|split].
        * apply Forall_forall. intros h Hh. apply in_map_iff in Hh. destruct Hh as (h0 & <- & Hh). apply in_concat in Hh. destruct Hh as (hs & Hhs & Hh). apply in_map2 in Hhs.
          destruct Hhs as (k & g & _ & _ & ->). apply in_map_iff in Hh. destruct Hh as (h & <- & _). cbn [q_npeak as_uint16]. assumption.
        * exists (xp, yp), ps. split; [assumption|]. split; [assumption|]. apply Forall_forall. intros h Hh. apply in_map_iff in Hh. destruct Hh as (h0 & <- & Hh). apply in_concat in Hh. destruct Hh as (hs & Hhs & Hh). apply in_map2 in Hhs.
          destruct Hhs as (k & g & _ & _ & ->). apply in_map_iff in Hh. destruct Hh as (h & <- & _). reflexivity.
        * eexists. split; [|rewrite map_concat; reflexivity].
          match goal with |- Forall2 ?P ?l (map ?f (map2 ?g ?l ?m)) => assert (Em : map f (map2 g l m) = map2 (fun k hs => f (g k hs)) l m) by
            (clear; generalize groups; induction (seq 0 (length (p_times p'))) as [|k l' IH]; intros [|h m']; try reflexivity; cbn; now rewrite IH); rewrite Em end.
          eapply Forall2_map2_seq; [exact Fg|]. intros k hs _ Ek. rewrite map_map. unfold as_uint16. cbn [q_event q_time q_npeak q_Xpeak q_Ypeak q_X q_Y q_Z q_Q q_E]. rewrite Hi16. now apply sample_of with (ps := ps). }
  destruct (rmap_all_forall2 _ _ chosen Hr) as (l & El & Fl). rewrite El. cbn [rbind].
  destruct l as [|hs0 l]; [inversion Fl; subst; now destruct Hne|]. set (L := hs0 :: l) in *. clearbody L.
  eexists _, (map (map as_uint16) L). split; [reflexivity|]. split; [apply map_concat|]. split.
  - rewrite map_concat. apply Forall_concat. clear -Fl. induction Fl as [|[i p] hs m l [H _] F IH]; constructor; assumption.
  - clear -Fl. induction Fl as [|[i p] hs m l [_ H] F IH]; constructor; assumption.
Qed.
Print Assumptions C70_hits_of_an_event.
