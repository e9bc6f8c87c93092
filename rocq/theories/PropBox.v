(** Property C120: gridded data on points that need not be equally spaced (src/pyftle/interpolate.py:297-762). *)
From Coq Require Import Reals Sorted.
From Verif Require Import Base Num NdArray Integrate GridInterp Interpolate SpecIntegrate SpecSeeds SpecInterp SpecGrid SpecBox BoxMain.
Local Open Scope R_scope.

(** C120 is false: 'grid' misplaces some samples on every rectangular grid with a line, other than the last, that is not
    where it would be if the lines were equally spaced.  [mesh2 xs ys]: the points of the grid with the lines xs and ys; the
    sample at the point (xs_k, ys_0) is number [sample2 nx k 0]. *)
Theorem C120_stretched_refuted : forall xs ys, StronglySorted Rlt xs -> StronglySorted Rlt ys ->
  (2 <= length xs)%nat -> (2 <= length ys)%nat -> (Z.of_nat (length xs) <= INT_MAX)%Z -> (Z.of_nat (length ys) <= INT_MAX)%Z ->
  forall (scp : scipy R) name fn k, case_variant name "grid" -> (k + 1 < length xs)%nat ->
  nth k xs 0 <> nth 0 xs 0 + INR k * spacing xs -> let nx := length xs in let ny := length ys in exists i0 i1 u,
    create_interpolator Rops scp name (Some [nx; ny]) fn = Ok i0 /\
    update Rops scp i0 (samples2 (nx * ny) u u) (Some (mesh2 xs ys)) = (i1, Ok tt) /\
    forall mem, snd (interpolate Rops scp mem i1 (arr2 [(nth k xs 0, nth 0 ys 0)])) <> Ok (arr2 [(u (sample2 nx k 0), u (sample2 nx k 0))]).
Proof. exact mesh_refuted. Qed.
Print Assumptions C120_stretched_refuted.

(** With equally spaced lines the samples are placed right, except on the last lines (C30). *)
Theorem C120_equally_spaced_partial : forall xs ys, StronglySorted Rlt xs -> StronglySorted Rlt ys ->
  (2 <= length xs)%nat -> (2 <= length ys)%nat -> (Z.of_nat (length xs) <= INT_MAX)%Z -> (Z.of_nat (length ys) <= INT_MAX)%Z ->
  forall (scp : scipy R) name fn u w, case_variant name "grid" -> equally_spaced xs -> equally_spaced ys ->
  let nx := length xs in let ny := length ys in exists i0 i1,
    create_interpolator Rops scp name (Some [nx; ny]) fn = Ok i0 /\
    update Rops scp i0 (samples2 (nx * ny) u w) (Some (mesh2 xs ys)) = (i1, Ok tt) /\
    forall mem i j, (i + 1 < nx)%nat -> (j + 1 < ny)%nat ->
      snd (interpolate Rops scp mem i1 (arr2 [(nth i xs 0, nth j ys 0)])) = Ok (arr2 [(u (sample2 nx i j), w (sample2 nx i j))]).
Proof. exact mesh_equal. Qed.
Print Assumptions C120_equally_spaced_partial.

(** What happens exactly, for every interpolator that is given a grid shape, in 2-D and 3-D, after any history: of the points
    only the bounding box matters.  Two arrays of points with the same bounding box - other distances between the lines,
    another order of the points, or points that form no grid at all - give the same answers then and ever after. *)
Theorem C120_only_the_box : forall (scp : scipy R) name gs fn i hist v p p', data_driven name ->
  create_interpolator Rops scp name (Some gs) fn = Ok i -> length gs = nrows p -> same_box p p' ->
  snd (update Rops scp (after Rops scp i hist) v (Some p)) = snd (update Rops scp (after Rops scp i hist) v (Some p')) /\
  forall later mem q,
    snd (interpolate Rops scp mem (after Rops scp (fst (update Rops scp (after Rops scp i hist) v (Some p))) later) q) =
    snd (interpolate Rops scp mem (after Rops scp (fst (update Rops scp (after Rops scp i hist) v (Some p'))) later) q).
Proof. exact box_only. Qed.
Print Assumptions C120_only_the_box.

(** The lines 0, 1, 4; they have the bounding box of 0, 2, 4. *)
Example C120_case : StronglySorted Rlt [0; 1; 4] /\ StronglySorted Rlt [0; 1] /\
  nth 1 [0; 1; 4] 0 <> nth 0 [0; 1; 4] 0 + INR 1 * spacing [0; 1; 4] /\ equally_spaced [0; 1] /\
  same_box (grid_points2 3 2 0 0 (spacing [0; 1; 4]) (spacing [0; 1])) (mesh2 [0; 1; 4] [0; 1]).
Proof.
  destruct mesh_case as (A & B & C & D). split; [exact A|]. split; [exact B|]. split; [exact C|]. split; [exact D|].
  exact (mesh_box _ _ A B (le_n_S _ _ (le_n_S _ _ (le_0_n 1))) (le_n 2)).
Qed.
