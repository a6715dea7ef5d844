(** C109: the file of a run of sophronia read by a run of beersheba *)
From Verif Require Import Base PeaksModel PeaksSpec BuffersModel.
From Verif Require DeconvModel BeerModel BeerSpec BrunModel BrunSpec BrunProps.
From Verif Require Import ReadModel ReadSpec PmapioModel PmapioSpec FiltersModel FiltersSpec XyModel HitsModel HitsSpec CorrModel CorrSpec EsmModel EsmSpec SophModel SophSpec SophEnergy SoeModel SoeSpec.
From Verif Require Import KrModel KrSpec PreadModel DorModel DorSpec SrunModel SrunSpec SrunProps ErunChain.
Import BeerModel BeerSpec BrunModel BrunSpec BrunProps.
Local Open Scope nat_scope.

Theorem C109_sophronia nearest xys v noise sw ct sqrt atan qthr cl md thr same_peak corr deconvolution round6 m dvs method region (c : beer_conf) n_dim sizes dx dy items rn so :
  takes_nearest nearest -> usable_map m method region -> (forall b mu, In b m -> kb_mu b = Some mu -> (0 < mu)%Q) -> (b_apply_z c = true -> numbers dvs <> []) -> (0 < b_threshold c)%Q ->
  sensible (b_drop_dist c) (b_cluster_size c) -> b_energy c < 2 -> (n_dim <= 2)%Z -> Forall (fun n => Z.of_nat n = n_dim) sizes -> b_drop_dist c = [dx; dy] -> (0 <= b_e_cut c)%Q ->
  (forall pts z, deconvolution pts z <> [] /\ forall p, In p (deconvolution pts z) -> (0 <= snd p)%Q) ->
  hits_file xys v noise sw ct sqrt atan qthr cl md thr same_peak corr items so -> (1 <= fst (s2_n cl))%Q ->
  NoDup (map pi_event items) -> (forall it, In it items -> pi_run it = rn) -> (forall it p, In it items -> In p (s2s (pi_pmap it)) -> not_negative p) ->
  (exists e, In (e, true) (so_valid so)) ->
  exists kept rowss hitss its o dv,
    only (fun it => accepted cl (pi_pmap it)) items kept /\
    Forall2 (event_rows xys (charge_single noise sw ct) sqrt atan qthr cl v (rms sqrt)) kept rowss /\ Forall2 (event_hits xys v (charge_of ct noise sw) qthr cl md thr same_peak corr) kept hitss /\
    beersheba w_event nearest deconvolution round6 m dvs method region c n_dim sizes [sophronia_file so] = Ok o /\ Forall2 (passed_on rn) (combine kept (combine rowss hitss)) its /\
    velocity dvs (b_apply_z c) dv /\ deco_file deconvolution round6 m dv c its o.
Proof.
  intros G M1 M2 V0 T0 Se En Nd Sz Ed Ec Im H N2 ND Rn NN Hv. destruct (sophronia_read xys v noise sw ct sqrt atan qthr cl md thr same_peak corr items rn so H N2 ND Rn NN Hv) as (W & Pos & kept & rowss & hitss & O & FR & FH & Rd).
  destruct (C109_run w_event nearest G deconvolution round6 m dvs method region c M1 M2 V0 T0 Se En n_dim sizes [sophronia_file so] dx dy Nd Sz Ed Ec Im) as (o & parts & dv & E & F & V & T).
  - intros g [<-|[]]. exact W.
  - intros g hits h [<-|[]]. apply Pos.
  - inversion F as [|? part ? rest F0 F1]; subst. inversion F1; subst. cbn [concat] in T. rewrite app_nil_r in T. exists kept, rowss, hitss, part, o, dv. do 4 (split; [assumption|]). split; [now apply Rd|]. split; [exact V|exact T].
Qed.
Print Assumptions C109_sophronia.
