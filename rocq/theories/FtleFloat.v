(** Facts about the 2D FTLE at IEEE binary64. *)
From Verif Require Import Base Num Jacobian Ftle.
From Coq Require Import PrimFloat FloatOps FloatAxioms SpecFloat.

Lemma SFmul_comm p e x y : SFmul p e x y = SFmul p e y x.
Proof.
  destruct x as [sx|sx| |sx mx ex], y as [sy|sy| |sy my ey]; simpl; try reflexivity;
    try (rewrite (xorb_comm sx sy); reflexivity).
  rewrite (xorb_comm sx sy), (Pos.mul_comm mx my), (Z.add_comm ex ey). reflexivity.
Qed.

Lemma float_mul_comm x y : PrimFloat.mul x y = PrimFloat.mul y x.
Proof. apply Prim2SF_inj. rewrite !mul_spec. apply SFmul_comm. Qed.

Lemma cg2_sym_float lnF F :
  a01 (cauchy_green_2x2 (Fops lnF) F) = a10 (cauchy_green_2x2 (Fops lnF) F).
Proof.
  simpl. rewrite (float_mul_comm (a00 F)), (float_mul_comm (a10 F)). reflexivity.
Qed.

Lemma cg2_sym_float_all lnF Fs :
  Forall (fun C => a01 C = a10 C) (compute_cauchy_green_2x2 (Fops lnF) Fs).
Proof.
  unfold compute_cauchy_green_2x2. apply Forall_forall. intros C HC.
  apply in_map_iff in HC. destruct HC as (F & <- & _). apply cg2_sym_float.
Qed.

(** diag(1.4, 1.4 + 1 ulp). *)
Definition nan_witness : m22 float :=
  M22 0x1.6666666666666p+0%float 0%float 0%float 0x1.6666666666667p+0%float.

Lemma ftle2_nan_witness lnF T : lnF nan = nan -> PrimFloat.eqb T 0 = false ->
  exists v, compute_ftle_2x2 (Fops lnF) [nan_witness] T = Ok [XVal v] /\ is_nan v = true.
Proof.
  intros Hln HT. unfold compute_ftle_2x2, ftle_of_eigs, py_div.
  change (o_eqb (Fops lnF) T (o_zero (Fops lnF))) with (PrimFloat.eqb T 0). rewrite HT. cbn [bind].
  assert (E : max_eigenvalue_2x2 (Fops lnF) (compute_cauchy_green_2x2 (Fops lnF) [nan_witness])
              = [Some nan]) by (vm_compute; reflexivity).
  rewrite E. cbn [map log_sqrt].
  change (o_sqrt (Fops lnF) nan) with (Some (PrimFloat.sqrt nan)).
  replace (PrimFloat.sqrt nan) with nan by (vm_compute; reflexivity).
  change (o_log (Fops lnF) nan) with (XVal (lnF nan)). rewrite Hln.
  cbn [xscale]. eexists; split; [reflexivity|].
  change (o_mul (Fops lnF)) with PrimFloat.mul.
  replace (PrimFloat.mul (o_div (Fops lnF) (o_one (Fops lnF)) T) nan) with nan; [vm_compute; reflexivity|].
  apply Prim2SF_inj. rewrite mul_spec. change (Prim2SF nan) with S754_nan.
  unfold SF64mul, SFmul. destruct (Prim2SF _); reflexivity.
Qed.
Lemma nan_witness_finite :
  Forall (fun x => PrimFloat.is_finite x = true)
    [a00 nan_witness; a01 nan_witness; a10 nan_witness; a11 nan_witness].
Proof. repeat constructor. Qed.
Lemma nan_witness_entries :
  (a00 nan_witness = 0x1.6666666666666p+0 /\ a11 nan_witness = 0x1.6666666666667p+0 /\
   a01 nan_witness = 0 /\ a10 nan_witness = 0)%float.
Proof. repeat split. Qed.
Lemma nan_refuted : exists F : m22 float,
  Forall (fun x => PrimFloat.is_finite x = true) [a00 F; a01 F; a10 F; a11 F] /\
  (a00 F = 0x1.6666666666666p+0 /\ a11 F = 0x1.6666666666667p+0 /\ a01 F = 0 /\ a10 F = 0)%float /\
  forall lnF T, lnF nan = nan -> PrimFloat.eqb T 0 = false ->
    exists v, compute_ftle_2x2 (Fops lnF) [F] T = Ok [XVal v] /\ PrimFloat.is_nan v = true.
Proof.
  exists nan_witness. split; [exact nan_witness_finite|]. split; [exact nan_witness_entries|].
  exact ftle2_nan_witness.
Qed.
