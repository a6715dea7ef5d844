(** Model of reco/deconv_functions.py: the satellite mask and the Richardson-Lucy deconvolution, for images with any number of dimensions.
    An image is the list of its values in row-major order together with its shape. Exact arithmetic: the rounding of the
    Fourier transforms is not modelled. *)
From Verif Require Import Base Arrays PeaksModel CorrModel Graph DeconvModel.
Local Open Scope Q_scope.

(** the indices of an array of a given shape, in row-major order *)
Fixpoint indices (shape : list nat) : list (list Z) :=
  match shape with
  | [] => [[]]
  | n :: s => flat_map (fun i => map (cons (Z.of_nat i)) (indices s)) (seq 0 n)
  end.
(** for deconv_functions.py 30-55: collect_component_sizes *)
Definition index_eqb (a b : list Z) : bool := if list_eq_dec Z.eq_dec a b then true else false.
(** for deconv_functions.py 30-55: collect_component_sizes *)
Definition index_add (a b : list Z) : list Z := map2 Z.add a b.
(** for deconv_functions.py 30-55: collect_component_sizes *)
Definition index_sub (a b : list Z) : list Z := map2 Z.sub a b.
(** the element at an index, 0 outside of the array *)
Definition at_index (shape : list nat) (im : list Q) (i : list Z) : Q :=
  match find (fun p => index_eqb i (fst p)) (combine (indices shape) im) with Some p => snd p | None => 0 end.
(** numpy: a.max() *)
Definition max_value (im : list Q) : result Q := match maxQ im with Some m => Ok m | None => Err ValueError end.

(** deconv_functions.py 30-55: collect_component_sizes. generate_binary_structure(ndim, 2): neighbours differ by at most 1 along each axis, and along at most two axes *)
Definition neighbours (u v : list Z) : bool :=
  let d := map Z.abs (index_sub u v) in forallb (fun x => (x <=? 1)%Z) d && (fold_right Z.add 0 d <=? 2)%Z.
(** scipy.ndimage.label: the components are numbered from 1, the background is 0 *)
Definition label_of (comps : list (list (list Z))) (i : list Z) : nat :=
  match np_where (existsb (index_eqb i)) comps with [] => 0 | c :: _ => S c end.
(** numpy.bincount *)
Definition maxN (l : list nat) : nat := fold_right Nat.max 0%nat l.
(** for deconv_functions.py 30-55: collect_component_sizes *)
Definition bincount (l : list nat) : list nat := match l with [] => [] | _ => map (fun v => count (Nat.eqb v) l) (seq 0 (S (maxN l))) end.
(** deconv_functions.py 30-55: collect_component_sizes *)
Definition collect_component_sizes (shape : list nat) (mask : list bool) : list nat * list nat :=
  let comps := components neighbours (pick_where mask (indices shape)) in
  let labels := map (label_of comps) (indices shape) in (labels, bincount labels).

(** deconv_functions.py 92-111: generate_satellite_mask. With a relative cut and a maximum of 0 no pixel is above the cut (nan or minus infinity) *)
Definition above_cut (im : list Q) (e_cut : Q) (ct : cut_type) : result (list bool) :=
  match ct with
  | CutAbs => Ok (map (fun v => Qle_bool e_cut v) im)
  | CutRel => rbind (max_value im) (fun m => Ok (map (fun v => if Qeqb m 0 then false else Qle_bool e_cut (v / m)) im))
  end.
(** deconv_functions.py 58-111: generate_satellite_mask *)
Definition generate_satellite_mask (shape : list nat) (im : list Q) (max_size : Z) (e_cut : Q) (ct : cut_type) : result (list bool) :=
  rbind (above_cut im e_cut ct) (fun mask =>
    let '(labels, sizes) := collect_component_sizes shape mask in
    if (length sizes <=? 2)%nat then Ok (map (fun _ => false) im)
    else let too_small := upd 0 false (map (fun s => (Z.of_nat s <? max_size)%Z) sizes) in
         Ok (map (fun l => nth l too_small false) labels)).

(** scipy.signal.convolve and fftconvolve with mode 'same': the part of the size of the first array in the middle of the full convolution *)
Definition convolve_same (shape : list nat) (im : list Q) (kshape : list nat) (ker : list Q) : list Q :=
  let c := map (fun k => Z.of_nat ((k - 1) / 2)) kshape in
  map (fun i => sumF (fun aw => at_index shape im (index_sub (index_add i c) (fst aw)) * snd aw) (combine (indices kshape) ker)) (indices shape).
(** numpy.finfo(float).eps *)
Definition eps : Q := 1 # 4503599627370496.
(** 477: np.place(x, x==0, eps) *)
Definition protect (x : list Q) : list Q := map (fun v => if Qeqb v 0 then eps else v) x.
(** im / im.max(): nan (None) for an image of zeros; an image with negative values and maximum 0 is not modelled *)
Definition normalised (im : list Q) : result (list val) :=
  rbind (max_value im) (fun m =>
    if Qeqb m 0 then if forallb (fun v => Qeqb v 0) im then Ok (map (fun _ => None) im) else Err NotModelled
    else Ok (map (fun v => Some (v / m)) im)).
(** 487: numpy.nansum of the terms (cur - ref)^2 / ref; None: infinite *)
Inductive term := NanTerm | InfTerm | Num (q : Q).
(** for deconv_functions.py 92-111: generate_satellite_mask *)
Definition diff_term (a r : val) : term :=
  match a, r with
  | Some a, Some r => let d := (a - r) * (a - r) in if Qeqb r 0 then if Qeqb d 0 then NanTerm else InfTerm else Num (d / r)
  | _, _ => NanTerm
  end.
(** deconv_functions.py 487 *)
Definition rel_diff (cur ref : list val) : option Q :=
  let ts := map2 diff_term cur ref in
  if existsb (fun t => match t with InfTerm => true | _ => false end) ts then None
  else Some (sumF (fun t => match t with Num q => q | _ => 0 end) ts).
(** deconv_functions.py 488 *)
Definition below (d : option Q) (thr : Q) : bool := match d with Some d => Qltb d thr | None => false end.

Section RichardsonLucy.
  Variables (shape : list nat) (image : list Q) (kshape : list nat) (psf : list Q).
  Variables (satellite_start_iter : option Z) (satellite_max_size : Z) (e_cut : Q) (ct : cut_type) (iter_thr : Q).
  (** deconv_functions.py 476-479: one update of the image *)
  Definition update (im : list Q) : list Q :=
    let x := protect (convolve_same shape im kshape psf) in
    let relative_blur := map2 Qdiv image x in
    map2 Qmult im (convolve_same shape relative_blur kshape (rev psf)).
  (** 482-484: the satellites are set to 0 from the given iteration on *)
  Definition kill_satellites (i : nat) (im : list Q) : result (list Q) :=
    match satellite_start_iter with
    | Some s => if (s <=? Z.of_nat i)%Z
                then rbind (generate_satellite_mask shape im satellite_max_size e_cut ct) (fun mask => Ok (map2 (fun (b : bool) v => if b then 0 else v) mask im))
                else Ok im
    | None => Ok im
    end.
  (** 475-491: the iterations; [psf_mirror] is the reversed array *)
  Fixpoint iterate (fuel i : nat) (im : list Q) (ref : list val) : result (list Q) :=
    match fuel with
    | O => Ok im
    | S fuel =>
        rbind (kill_satellites i (update im)) (fun im =>
        rbind (normalised im) (fun cur =>
          if below (rel_diff cur ref) iter_thr then Ok im else iterate fuel (S i) im cur))
    end.
  (** 407-493: richardson_lucy *)
  Definition richardson_lucy (iterations : nat) : result (list Q) :=
    rbind (normalised image) (fun ref => iterate iterations 0 (map (fun _ => 1 # 2) (indices shape)) ref).
End RichardsonLucy.
