(** C38: queries do not influence one another. *)
From Coq Require Import Lia.
From Verif Require Import Base Num NdArray Integrate GridInterp Interpolate SpecSeeds SpecInterp NdFacts HighPerfFacts.

Section Hist.
  Context {T : Type} (O : ops T) (scp : scipy T).

  (** Two objects that differ at most in their buffers. *)
  Definition bare (o : highperf T) : Prop := h_x o = None /\ h_y o = None /\ h_z o = None.

  Definition sim2 (o o' : highperf T) : Prop :=
    h_shape o = h_shape o' /\ outs_ok 2 o /\ outs_ok 2 o' /\
    ((bare o /\ bare o') \/ exists vx vy ax ay, holds2 o vx vy ax ay /\ holds2 o' vx vy ax ay).
  Definition sim3 (o o' : highperf T) : Prop :=
    h_shape o = h_shape o' /\ outs_ok 3 o /\ outs_ok 3 o' /\
    ((bare o /\ bare o') \/ exists vx vy vz ax ay az, holds3 o vx vy vz ax ay az /\ holds3 o' vx vy vz ax ay az).

  Definition built2 (o : highperf T) vx vy ax ay : highperf T :=
    HighPerf (h_shape o) (h_velocities o) (h_points o) (h_u o) (h_v o) (h_w o)
      (Some (C2 (Interp2D vx ax ay None))) (Some (C2 (Interp2D vy ax ay None))) None.
  Definition built3 (o : highperf T) vx vy vz ax ay az : highperf T :=
    HighPerf (h_shape o) (h_velocities o) (h_points o) (h_u o) (h_v o) (h_w o)
      (Some (C3 (Interp3D vx ax ay az None))) (Some (C3 (Interp3D vy ax ay az None)))
      (Some (C3 (Interp3D vz ax ay az None))).

  (** _initialize_interpolator as a function of the data only. *)
  Lemma init2_eq nx ny v p : exists r : res (nd T * nd T * axis T * axis T), forall o,
    h_shape o = [nx; ny] -> h_velocities o = Some v -> h_points o = Some p ->
    highperf_init O o = match r with
      | Ok (vx, vy, ax, ay) => (built2 o vx vy ax ay, Ok tt)
      | Err e => (o, Err e)
      end.
  Proof.
    unfold highperf_init, mk_interp2d, built2.
    destruct (reshape_c (nd_of_mat p) [2; nx; ny]) as [c|e] eqn:E1;
      [|exists (Err e); intros o -> -> ->; cbn; rewrite E1; reflexivity].
    destruct (reshape_f (nd_of_mat v) [2; nx; ny]) as [f|e] eqn:E2;
      [|exists (Err e); intros o -> -> ->; cbn -[reshape_f]; rewrite E1; cbn [bind]; rewrite E2; reflexivity].
    destruct (coordinate_axis O c [nx; ny] 0) as [gx|e] eqn:E3;
      [|exists (Err e); intros o -> -> ->; cbn -[reshape_f coordinate_axis]; rewrite E1; cbn [bind]; rewrite E2; cbn [bind]; rewrite E3; reflexivity].
    destruct (coordinate_axis O c [nx; ny] 1) as [gy|e] eqn:E4;
      [|exists (Err e); intros o -> -> ->; cbn -[reshape_f coordinate_axis]; rewrite E1; cbn [bind]; rewrite E2; cbn [bind]; rewrite E3; cbn [bind]; rewrite E4; reflexivity].
    destruct (let* v0 := subarray f 0 in let* ax := mk_axis O gx in let* ay := mk_axis O gy in
              let* v1 := subarray f 1 in Ok (v0, v1, ax, ay)) as [[[[vx vy] ax] ay]|e] eqn:E5.
    - exists (Ok (vx, vy, ax, ay)). intros o -> -> ->. cbn -[reshape_f coordinate_axis mk_axis subarray]. rewrite E1; cbn [bind]; rewrite E2; cbn [bind]; rewrite E3; cbn [bind]; rewrite E4; cbn [bind].
      destruct (subarray f 0); [|discriminate E5]. cbn [bind] in E5 |- *.
      destruct (mk_axis O gx); [|discriminate E5]. cbn [bind] in E5 |- *.
      destruct (mk_axis O gy); [|discriminate E5]. cbn [bind] in E5 |- *.
      destruct (subarray f 1); [|discriminate E5]. cbn [bind] in E5 |- *. injection E5 as -> -> -> ->. reflexivity.
    - exists (Err e). intros o -> -> ->. cbn -[reshape_f coordinate_axis mk_axis subarray]. rewrite E1; cbn [bind]; rewrite E2; cbn [bind]; rewrite E3; cbn [bind]; rewrite E4; cbn [bind].
      destruct (subarray f 0); cbn [bind] in E5 |- *; [|injection E5 as ->; reflexivity].
      destruct (mk_axis O gx); cbn [bind] in E5 |- *; [|injection E5 as ->; reflexivity].
      destruct (mk_axis O gy); cbn [bind] in E5 |- *; [|injection E5 as ->; reflexivity].
      destruct (subarray f 1); cbn [bind] in E5 |- *; [discriminate E5|injection E5 as ->; reflexivity].
  Qed.

  Lemma init3_eq nx ny nz v p : exists r : res (nd T * nd T * nd T * axis T * axis T * axis T), forall o,
    h_shape o = [nx; ny; nz] -> h_velocities o = Some v -> h_points o = Some p ->
    highperf_init O o = match r with
      | Ok (vx, vy, vz, ax, ay, az) => (built3 o vx vy vz ax ay az, Ok tt)
      | Err e => (o, Err e)
      end.
  Proof.
    unfold highperf_init, mk_interp3d, built3.
    destruct (reshape_c (nd_of_mat p) [3; nx; ny; nz]) as [c|e] eqn:E1;
      [|exists (Err e); intros o -> -> ->; cbn -[reshape_c]; rewrite E1; reflexivity].
    destruct (let* f0 := reshape_c (nd_of_mat v) [3; nx; ny; nz] in transpose_0213 f0) as [f|e] eqn:E2.
    2:{ exists (Err e); intros o -> -> ->; cbn -[reshape_c transpose_0213]; rewrite E1; cbn [bind].
        destruct (reshape_c (nd_of_mat v) _); cbn [bind] in E2 |- *; rewrite ?E2; [reflexivity|congruence]. }
    destruct (coordinate_axis O c [nx; ny; nz] 0) as [gx|e] eqn:E3.
    2:{ exists (Err e); intros o -> -> ->; cbn -[reshape_c transpose_0213 coordinate_axis]; rewrite E1; cbn [bind].
        destruct (reshape_c (nd_of_mat v) _); cbn [bind] in E2 |- *; rewrite ?E2; [|congruence]. cbn [bind].
        rewrite E3. reflexivity. }
    destruct (coordinate_axis O c [nx; ny; nz] 1) as [gy|e] eqn:E4.
    2:{ exists (Err e); intros o -> -> ->; cbn -[reshape_c transpose_0213 coordinate_axis]; rewrite E1; cbn [bind].
        destruct (reshape_c (nd_of_mat v) _); cbn [bind] in E2 |- *; rewrite ?E2; [|congruence]. cbn [bind].
        rewrite E3; cbn [bind]; rewrite E4. reflexivity. }
    destruct (coordinate_axis O c [nx; ny; nz] 2) as [gz|e] eqn:E5.
    2:{ exists (Err e); intros o -> -> ->; cbn -[reshape_c transpose_0213 coordinate_axis]; rewrite E1; cbn [bind].
        destruct (reshape_c (nd_of_mat v) _); cbn [bind] in E2 |- *; rewrite ?E2; [|congruence]. cbn [bind].
        rewrite E3; cbn [bind]; rewrite E4; cbn [bind]; rewrite E5. reflexivity. }
    destruct (let* v0 := subarray f 0 in let* ax := mk_axis O gx in let* ay := mk_axis O gy in
              let* az := mk_axis O gz in let* v1 := subarray f 1 in let* v2 := subarray f 2 in
              Ok (v0, v1, v2, ax, ay, az)) as [[[[[[vx vy] vz] ax] ay] az]|e] eqn:E6.
    - exists (Ok (vx, vy, vz, ax, ay, az)). intros o -> -> ->.
      cbn -[reshape_c transpose_0213 coordinate_axis mk_axis subarray]; rewrite E1; cbn [bind].
      destruct (reshape_c (nd_of_mat v) _); cbn [bind] in E2 |- *; rewrite ?E2; [|congruence]. cbn [bind].
      rewrite E3; cbn [bind]; rewrite E4; cbn [bind]; rewrite E5; cbn [bind].
      destruct (subarray f 0); [|discriminate E6]. cbn [bind] in E6 |- *.
      destruct (mk_axis O gx); [|discriminate E6]. cbn [bind] in E6 |- *.
      destruct (mk_axis O gy); [|discriminate E6]. cbn [bind] in E6 |- *.
      destruct (mk_axis O gz); [|discriminate E6]. cbn [bind] in E6 |- *.
      destruct (subarray f 1); [|discriminate E6]. cbn [bind] in E6 |- *.
      destruct (subarray f 2); [|discriminate E6]. cbn [bind] in E6 |- *.
      injection E6 as -> -> -> -> -> ->. reflexivity.
    - exists (Err e). intros o -> -> ->.
      cbn -[reshape_c transpose_0213 coordinate_axis mk_axis subarray]; rewrite E1; cbn [bind].
      destruct (reshape_c (nd_of_mat v) _); cbn [bind] in E2 |- *; rewrite ?E2; [|congruence]. cbn [bind].
      rewrite E3; cbn [bind]; rewrite E4; cbn [bind]; rewrite E5; cbn [bind].
      destruct (subarray f 0); cbn [bind] in E6 |- *; [|injection E6 as ->; reflexivity].
      destruct (mk_axis O gx); cbn [bind] in E6 |- *; [|injection E6 as ->; reflexivity].
      destruct (mk_axis O gy); cbn [bind] in E6 |- *; [|injection E6 as ->; reflexivity].
      destruct (mk_axis O gz); cbn [bind] in E6 |- *; [|injection E6 as ->; reflexivity].
      destruct (subarray f 1); cbn [bind] in E6 |- *; [|injection E6 as ->; reflexivity].
      destruct (subarray f 2); cbn [bind] in E6 |- *; [discriminate E6|injection E6 as ->; reflexivity].
  Qed.

  Lemma sim2_update o o' v p nx ny : h_shape o = [nx; ny] -> sim2 o o' ->
    sim2 (fst (highperf_update O o v p)) (fst (highperf_update O o' v p)) /\
    h_shape (fst (highperf_update O o v p)) = [nx; ny].
  Proof.
    intros Hs [Es [Ho [Ho' Hc]]]. unfold highperf_update. destruct p as [p|].
    - destruct (init2_eq nx ny v p) as [r Hr]. rewrite !Hr by (cbn; congruence).
      destruct r as [[[[vx vy] ax] ay]|e]; cbn [fst].
      + split; [|exact Hs]. split; [exact Es|]. split; [exact Ho|]. split; [exact Ho'|].
        right. exists vx, vy, ax, ay. split; (split; [reflexivity|split; [assumption|exists None, None; repeat split]]).
      + split; [|exact Hs]. split; [exact Es|]. split; [exact Ho|]. split; [exact Ho'|].
        destruct Hc as [[B B']|Hc]; [left; split; assumption|right].
        destruct Hc as [vx [vy [ax [ay [[Hz [_ H]] [Hz' [_ H']]]]]]]. exists vx, vy, ax, ay.
        split; (split; [assumption|split; assumption]).
    - destruct Hc as [[B B']|[vx [vy [ax [ay [H H']]]]]].
      + destruct B as [Bx [By Bz]], B' as [Bx' [By' Bz']]. rewrite Bx, Bx'. cbn [fst].
        split; [|exact Hs]. split; [exact Es|]. split; [exact Ho|]. split; [exact Ho'|]. left. repeat split; assumption.
      + destruct H as [Hz [_ [bx [by_ [Ix [Iy [Ex Ey]]]]]]]. destruct H' as [Hz' [_ [bx' [by' [Ix' [Iy' [Ex' Ey']]]]]]].
        rewrite Ex, Ey, Hz, Ex', Ey', Hz'.
        destruct (get (mrows v) 0) as [r0|e0]; [destruct (get (mrows v) 1) as [r1|e1]|]; cbn [fst set_field];
          (split; [|exact Hs]); (split; [exact Es|]); (split; [exact Ho|]); (split; [exact Ho'|]); right;
          eexists _, _, ax, ay; (split; (split; [reflexivity|split; [assumption|]])); cbn [h_x h_y];
          first [exists bx, by_; split; [exact Ix|split; [exact Iy|split; [reflexivity|reflexivity]]]
                |exists bx', by'; split; [exact Ix'|split; [exact Iy'|split; [reflexivity|reflexivity]]]].
  Qed.

  Lemma sim3_update o o' v p nx ny nz : h_shape o = [nx; ny; nz] -> sim3 o o' ->
    sim3 (fst (highperf_update O o v p)) (fst (highperf_update O o' v p)) /\
    h_shape (fst (highperf_update O o v p)) = [nx; ny; nz].
  Proof.
    intros Hs [Es [Ho [Ho' Hc]]]. unfold highperf_update. destruct p as [p|].
    - destruct (init3_eq nx ny nz v p) as [r Hr]. rewrite !Hr by (cbn; congruence).
      destruct r as [[[[[[vx vy] vz] ax] ay] az]|e]; cbn [fst].
      + split; [|exact Hs]. split; [exact Es|]. split; [exact Ho|]. split; [exact Ho'|].
        right. exists vx, vy, vz, ax, ay, az.
        split; (split; [assumption|exists None, None, None; repeat split]).
      + split; [|exact Hs]. split; [exact Es|]. split; [exact Ho|]. split; [exact Ho'|].
        destruct Hc as [[B B']|Hc]; [left; split; assumption|right].
        destruct Hc as [vx [vy [vz [ax [ay [az [[_ H] [_ H']]]]]]]]. exists vx, vy, vz, ax, ay, az.
        split; (split; assumption).
    - destruct Hc as [[B B']|[vx [vy [vz [ax [ay [az [H H']]]]]]]].
      + destruct B as [Bx [By Bz]], B' as [Bx' [By' Bz']]. rewrite Bx, Bx'. cbn [fst].
        split; [|exact Hs]. split; [exact Es|]. split; [exact Ho|]. split; [exact Ho'|]. left. repeat split; assumption.
      + destruct H as [_ [bx [by_ [bz [Ix [Iy [Iz [Ex [Ey Ez]]]]]]]]].
        destruct H' as [_ [bx' [by' [bz' [Ix' [Iy' [Iz' [Ex' [Ey' Ez']]]]]]]]].
        rewrite Ex, Ey, Ez, Ex', Ey', Ez'.
        destruct (get (mrows v) 0) as [r0|e0]; [destruct (get (mrows v) 1) as [r1|e1];
          [destruct (get (mrows v) 2) as [r2|e2]|]|]; cbn [fst set_field];
          (split; [|exact Hs]); (split; [exact Es|]); (split; [exact Ho|]); (split; [exact Ho'|]); right;
          eexists _, _, _, ax, ay, az; (split; (split; [assumption|])); cbn [h_x h_y h_z];
          first [exists bx, by_, bz; split; [assumption|split; [assumption|split; [assumption|split; [reflexivity|split; reflexivity]]]]
                |exists bx', by', bz'; split; [assumption|split; [assumption|split; [assumption|split; [reflexivity|split; reflexivity]]]]].
  Qed.

  Lemma outs_ensure mem (o : highperf T) n dim : (dim = 2 \/ dim = 3) -> outs_ok dim o -> outs_ok dim (ensure_buffers mem o n dim).
  Proof.
    intros Hd Ho. destruct (ensure_spec mem o n dim Hd Ho) as [_ [_ [_ [_ [_ [_ [bu [bv [Eu [Ev [Lu [Lv Hw]]]]]]]]]]]].
    unfold outs_ok. rewrite Eu. exists bv. split; [exact Ev|]. split; [congruence|].
    intros H3. destruct (Hw H3) as [bw [Ew Lw]]. exists bw. split; [exact Ew|congruence].
  Qed.

  (** A query: same answer from both, and still similar (each side may use its own memory). *)
  Lemma sim2_query o o' mem mem' pts : sim2 o o' ->
    snd (highperf_interpolate O mem o (arr2 pts)) = snd (highperf_interpolate O mem' o' (arr2 pts)) /\
    sim2 (fst (highperf_interpolate O mem o (arr2 pts))) o' /\
    h_shape (fst (highperf_interpolate O mem o (arr2 pts))) = h_shape o.
  Proof.
    intros [Es [Ho [Ho' Hc]]]. destruct Hc as [[B B']|[vx [vy [ax [ay [H H']]]]]].
    - unfold highperf_interpolate. change (mcols (arr2 pts)) with 2. cbv iota.
      destruct (ensure_spec mem o (nrows (arr2 pts)) 2 (or_introl eq_refl) Ho) as [Px [Py [Pz [Ps _]]]].
      destruct (ensure_spec mem' o' (nrows (arr2 pts)) 2 (or_introl eq_refl) Ho') as [Px' [Py' [Pz' [Ps' _]]]].
      pose proof (outs_ensure mem o (nrows (arr2 pts)) 2 (or_introl eq_refl) Ho) as HO.
      destruct B as [Bx [By Bz]], B' as [Bx' [By' Bz']].
      rewrite Px, Bx, Px', Bx'. cbn [fst snd]. split; [reflexivity|]. split; [|exact Ps].
      split; [congruence|]. split; [exact HO|]. split; [exact Ho'|].
      left. split; repeat split; congruence.
    - destruct (interpolate2_eq O mem o vx vy ax ay pts H) as [o1 [H1 E]].
      destruct (interpolate2_eq O mem' o' vx vy ax ay pts H') as [o2 [H2 E']].
      assert (Sh : h_shape o1 = h_shape o).
      { clear - E Ho. unfold highperf_interpolate in E. change (mcols (arr2 pts)) with 2 in E. cbv iota in E.
        destruct (ensure_spec mem o (nrows (arr2 pts)) 2 (or_introl eq_refl) Ho) as [_ [_ [_ [Ps _]]]].
        set (o0 := ensure_buffers mem o (nrows (arr2 pts)) 2) in *. clearbody o0. rewrite <- Ps. clear Ps Ho.
        destruct (h_x o0) as [cx|]; [|injection E as <- _; reflexivity].
        destruct (h_y o0) as [cy|]; [|injection E as <- _; reflexivity].
        unfold run_x in E. destruct (call_component O (index_junk mem 4) cx (arr2 pts) (h_u o0)) as [cx' [bu|e]];
          [|injection E as <- _; reflexivity].
        unfold run_y in E. destruct (call_component O (index_junk mem 5) cy (arr2 pts) _) as [cy' [bv|e]];
          injection E as <- _; reflexivity. }
      rewrite E, E'. cbn [fst snd]. split; [reflexivity|]. split; [|exact Sh].
      split; [congruence|]. destruct H1 as [Hz [Ho1 Hr]]. split; [exact Ho1|]. split; [exact Ho'|].
      right. exists vx, vy, ax, ay. split; [split; [exact Hz|split; assumption]|exact H'].
  Qed.

  Lemma sim3_query o o' mem mem' pts : sim3 o o' ->
    snd (highperf_interpolate O mem o (arr3 pts)) = snd (highperf_interpolate O mem' o' (arr3 pts)) /\
    sim3 (fst (highperf_interpolate O mem o (arr3 pts))) o' /\
    h_shape (fst (highperf_interpolate O mem o (arr3 pts))) = h_shape o.
  Proof.
    intros [Es [Ho [Ho' Hc]]]. destruct Hc as [[B B']|[vx [vy [vz [ax [ay [az [H H']]]]]]]].
    - unfold highperf_interpolate. change (mcols (arr3 pts)) with 3. cbv iota.
      destruct (ensure_spec mem o (nrows (arr3 pts)) 3 (or_intror eq_refl) Ho) as [Px [Py [Pz [Ps _]]]].
      destruct (ensure_spec mem' o' (nrows (arr3 pts)) 3 (or_intror eq_refl) Ho') as [Px' [Py' [Pz' [Ps' _]]]].
      pose proof (outs_ensure mem o (nrows (arr3 pts)) 3 (or_intror eq_refl) Ho) as HO.
      destruct B as [Bx [By Bz]], B' as [Bx' [By' Bz']].
      rewrite Px, Bx, Px', Bx'. cbn [fst snd]. split; [reflexivity|]. split; [|exact Ps].
      split; [congruence|]. split; [exact HO|]. split; [exact Ho'|].
      left. split; repeat split; congruence.
    - destruct (interpolate3_eq O mem o vx vy vz ax ay az pts H) as [o1 [H1 E]].
      destruct (interpolate3_eq O mem' o' vx vy vz ax ay az pts H') as [o2 [H2 E']].
      assert (Sh : h_shape o1 = h_shape o).
      { clear - E Ho. unfold highperf_interpolate in E. change (mcols (arr3 pts)) with 3 in E. cbv iota in E.
        destruct (ensure_spec mem o (nrows (arr3 pts)) 3 (or_intror eq_refl) Ho) as [_ [_ [_ [Ps _]]]].
        set (o0 := ensure_buffers mem o (nrows (arr3 pts)) 3) in *. clearbody o0. rewrite <- Ps. clear Ps Ho.
        destruct (h_x o0) as [cx|]; [|injection E as <- _; reflexivity].
        destruct (h_y o0) as [cy|]; [|injection E as <- _; reflexivity].
        destruct (h_z o0) as [cz|]; [|injection E as <- _; reflexivity].
        unfold run_x in E. destruct (call_component O (index_junk mem 4) cx (arr3 pts) (h_u o0)) as [cx' [bu|e]];
          [|injection E as <- _; reflexivity].
        unfold run_y in E. destruct (call_component O (index_junk mem 5) cy (arr3 pts) _) as [cy' [bv|e]];
          [|injection E as <- _; reflexivity].
        unfold run_z in E. destruct (call_component O (index_junk mem 6) cz (arr3 pts) _) as [cz' [bw|e]];
          injection E as <- _; reflexivity. }
      rewrite E, E'. cbn [fst snd]. split; [reflexivity|]. split; [|exact Sh].
      split; [congruence|]. destruct H1 as [Ho1 Hr]. split; [exact Ho1|]. split; [exact Ho'|].
      right. exists vx, vy, vz, ax, ay, az. split; [split; assumption|exact H'].
  Qed.

  Lemma hist2 nx ny hist o o' : h_shape o = [nx; ny] -> sim2 o o' -> queries_have 2 hist ->
    exists a b, after O scp (IHigh o) hist = IHigh a /\ after O scp (IHigh o') (filter is_update hist) = IHigh b /\
      sim2 a b /\ h_shape a = [nx; ny].
  Proof.
    revert o o'. induction hist as [|[v p|mem q] hist IH]; intros o o' Hs Hsim Hq; cbn [after filter is_update].
    - exists o, o'. auto.
    - apply Forall_cons_iff in Hq. destruct Hq as [_ Hq']. cbn [update].
      destruct (sim2_update o o' v p nx ny Hs Hsim) as [Hu Hsu].
      destruct (highperf_update O o v p) as [a ra]. destruct (highperf_update O o' v p) as [b rb]. cbn [fst] in *.
      apply IH; assumption.
    - apply Forall_cons_iff in Hq. destruct Hq as [[Hw Hc] Hq']. destruct (wf_arr2 q Hw Hc) as [pts ->]. cbn [interpolate].
      destruct (sim2_query o o' mem mem pts Hsim) as [_ [Hu Hsu]].
      destruct (highperf_interpolate O mem o (arr2 pts)) as [a ra]. cbn [fst] in *.
      apply IH; first [assumption|congruence].
  Qed.

  Lemma hist3 nx ny nz hist o o' : h_shape o = [nx; ny; nz] -> sim3 o o' -> queries_have 3 hist ->
    exists a b, after O scp (IHigh o) hist = IHigh a /\ after O scp (IHigh o') (filter is_update hist) = IHigh b /\
      sim3 a b /\ h_shape a = [nx; ny; nz].
  Proof.
    revert o o'. induction hist as [|[v p|mem q] hist IH]; intros o o' Hs Hsim Hq; cbn [after filter is_update].
    - exists o, o'. auto.
    - apply Forall_cons_iff in Hq. destruct Hq as [_ Hq']. cbn [update].
      destruct (sim3_update o o' v p nx ny nz Hs Hsim) as [Hu Hsu].
      destruct (highperf_update O o v p) as [a ra]. destruct (highperf_update O o' v p) as [b rb]. cbn [fst] in *.
      apply IH; assumption.
    - apply Forall_cons_iff in Hq. destruct Hq as [[Hw Hc] Hq']. destruct (wf_arr3 q Hw Hc) as [pts ->]. cbn [interpolate].
      destruct (sim3_query o o' mem mem pts Hsim) as [_ [Hu Hsu]].
      destruct (highperf_interpolate O mem o (arr3 pts)) as [a ra]. cbn [fst] in *.
      apply IH; first [assumption|congruence].
  Qed.

  Lemma sim2_new gs : sim2 (highperf_new gs) (highperf_new gs).
  Proof. repeat split. left. repeat split. Qed.
  Lemma sim3_new gs : sim3 (highperf_new gs) (highperf_new gs).
  Proof. repeat split. left. repeat split. Qed.

  Lemma read_only_2d nx ny hist q mem mem' :
    queries_have 2 hist -> wf_mat q -> mcols q = 2 ->
    let i := IHigh (highperf_new [nx; ny]) in
    snd (interpolate O scp mem (after O scp i hist) q) =
    snd (interpolate O scp mem' (after O scp i (filter is_update hist)) q).
  Proof.
    intros Hq Hw Hc i. destruct (hist2 nx ny hist (highperf_new [nx; ny]) _ eq_refl (sim2_new _) Hq) as (a & b & Ea & Eb & Hs & _).
    subst i. rewrite Ea, Eb. destruct (wf_arr2 q Hw Hc) as [pts ->]. cbn [interpolate].
    destruct (sim2_query a b mem mem' pts Hs) as [E _].
    destruct (highperf_interpolate O mem a (arr2 pts)), (highperf_interpolate O mem' b (arr2 pts)). exact E.
  Qed.

  Lemma read_only_3d nx ny nz hist q mem mem' :
    queries_have 3 hist -> wf_mat q -> mcols q = 3 ->
    let i := IHigh (highperf_new [nx; ny; nz]) in
    snd (interpolate O scp mem (after O scp i hist) q) =
    snd (interpolate O scp mem' (after O scp i (filter is_update hist)) q).
  Proof.
    intros Hq Hw Hc i. destruct (hist3 nx ny nz hist (highperf_new [nx; ny; nz]) _ eq_refl (sim3_new _) Hq) as (a & b & Ea & Eb & Hs & _).
    subst i. rewrite Ea, Eb. destruct (wf_arr3 q Hw Hc) as [pts ->]. cbn [interpolate].
    destruct (sim3_query a b mem mem' pts Hs) as [E _].
    destruct (highperf_interpolate O mem a (arr3 pts)), (highperf_interpolate O mem' b (arr3 pts)). exact E.
  Qed.

  (** The kinds other than 'grid' do not even change state. *)
  Lemma read_only_other mem (i : interp scp) q : (forall o, i <> IHigh o) -> fst (interpolate O scp mem i q) = i.
  Proof. destruct i; intros H; try reflexivity. exfalso. exact (H o eq_refl). Qed.

  (** One point at a time. *)
  Lemma mapr_single {A B} (f : A -> res B) l m : mapr f l = Ok m -> Forall2 (fun a b => mapr f [a] = Ok [b]) l m.
  Proof.
    revert m; induction l as [|a l IH]; cbn; intros m H; [injection H as <-; constructor|].
    destruct (f a) as [b|] eqn:E; cbn [bind] in *; [|discriminate].
    destruct (mapr f l) as [m'|]; cbn [bind] in *; [|discriminate]. injection H as <-.
    constructor; [rewrite E; reflexivity|auto].
  Qed.

  Lemma eval2_single v ax ay pts vals : eval2 O v ax ay pts = Ok vals ->
    Forall2 (fun p b => eval2 O v ax ay [p] = Ok [b]) pts vals.
  Proof. unfold eval2. destruct (shape v) as [|? [|? [|]]]; try discriminate. apply mapr_single. Qed.

  Lemma eval3_single v ax ay az pts vals : eval3 O v ax ay az pts = Ok vals ->
    Forall2 (fun p b => eval3 O v ax ay az [p] = Ok [b]) pts vals.
  Proof.
    unfold eval3. destruct (shape v) as [|? [|? [|? [|]]]]; try discriminate.
    destruct (c_int _); [|discriminate]. apply mapr_single.
  Qed.

  Lemma arr2_inj {A} (l m : list (A * A)) : arr2 l = arr2 m -> l = m.
  Proof.
    unfold arr2. intros H. injection H as H. revert m H. induction l as [|[x y] l IH]; intros [|[x' y'] m] H; cbn in H;
      try discriminate; [reflexivity|]. injection H as -> -> H. f_equal. auto.
  Qed.

  Lemma pointwise_2d nx ny hist mem pts m :
    queries_have 2 hist ->
    let i := after O scp (IHigh (highperf_new [nx; ny])) hist in
    snd (interpolate O scp mem i (arr2 pts)) = Ok m ->
    exists out, m = arr2 out /\
      Forall2 (fun p o => forall mem', snd (interpolate O scp mem' i (arr2 [p])) = Ok (arr2 [o])) pts out.
  Proof.
    intros Hq i. destruct (hist2 nx ny hist (highperf_new [nx; ny]) _ eq_refl (sim2_new _) Hq)
      as (a & b & Ea & _ & [_ [Ho [_ Hs]]] & _).
    subst i. rewrite Ea. cbn [interpolate]. destruct Hs as [[B _]|(vx & vy & ax & ay & Hh & _)].
    - unfold highperf_interpolate. change (mcols (arr2 pts)) with 2. cbv iota.
      destruct (ensure_spec mem a (nrows (arr2 pts)) 2 (or_introl eq_refl) Ho) as [Px _].
      destruct B as [Bx _]. rewrite Px, Bx. discriminate.
    - destruct (interpolate2_eq O mem a vx vy ax ay pts Hh) as [o1 [_ E]]. rewrite E. cbn [snd].
      destruct (eval2 O vx ax ay pts) as [us|] eqn:Eu; [|discriminate]. cbn [bind].
      destruct (eval2 O vy ax ay pts) as [ws|] eqn:Ew; [|discriminate]. cbn [bind]. intros H. injection H as <-.
      exists (combine us ws). split; [reflexivity|].
      apply eval2_single in Eu. apply eval2_single in Ew. clear E.
      revert ws Ew. induction Eu as [|p u pts us Hp Eu IH]; intros ws Ew; inversion Ew; subst; cbn [combine]; constructor; auto.
      intros mem'. destruct (interpolate2_eq O mem' a vx vy ax ay [p] Hh) as [o2 [_ E']]. rewrite E'. cbn [snd].
      rewrite Hp, H1. reflexivity.
  Qed.

  Lemma pointwise_3d nx ny nz hist mem pts m :
    queries_have 3 hist ->
    let i := after O scp (IHigh (highperf_new [nx; ny; nz])) hist in
    snd (interpolate O scp mem i (arr3 pts)) = Ok m ->
    exists out, m = arr3 out /\
      Forall2 (fun p o => forall mem', snd (interpolate O scp mem' i (arr3 [p])) = Ok (arr3 [o])) pts out.
  Proof.
    intros Hq i. destruct (hist3 nx ny nz hist (highperf_new [nx; ny; nz]) _ eq_refl (sim3_new _) Hq)
      as (a & b & Ea & _ & [_ [Ho [_ Hs]]] & _).
    subst i. rewrite Ea. cbn [interpolate]. destruct Hs as [[B _]|(vx & vy & vz & ax & ay & az & Hh & _)].
    - unfold highperf_interpolate. change (mcols (arr3 pts)) with 3. cbv iota.
      destruct (ensure_spec mem a (nrows (arr3 pts)) 3 (or_intror eq_refl) Ho) as [Px _].
      destruct B as [Bx _]. rewrite Px, Bx. discriminate.
    - destruct (interpolate3_eq O mem a vx vy vz ax ay az pts Hh) as [o1 [_ E]]. rewrite E. cbn [snd].
      destruct (eval3 O vx ax ay az pts) as [us|] eqn:Eu; [|discriminate]. cbn [bind].
      destruct (eval3 O vy ax ay az pts) as [ws|] eqn:Ew; [|discriminate]. cbn [bind].
      destruct (eval3 O vz ax ay az pts) as [ts|] eqn:Et; [|discriminate]. cbn [bind]. intros H. injection H as <-.
      exists (combine (combine us ws) ts). split; [reflexivity|].
      apply eval3_single in Eu. apply eval3_single in Ew. apply eval3_single in Et. clear E.
      revert ws ts Ew Et. induction Eu as [|p u pts us Hp Eu IH]; intros ws ts Ew Et; inversion Ew; subst;
        inversion Et; subst; cbn [combine]; constructor; auto.
      intros mem'. destruct (interpolate3_eq O mem' a vx vy vz ax ay az [p] Hh) as [o2 [_ E']]. rewrite E'. cbn [snd].
      repeat match goal with H : eval3 _ _ _ _ _ [_] = Ok _ |- _ => rewrite H; clear H end. reflexivity.
  Qed.

  (** A rejected query can poison the object: on a 3-D grid, a query with two columns. *)
  Lemma poison o vx vy vz ax ay az pts2 pts3 mem mem' :
    h_u o = None -> h_x o = Some (C3 (Interp3D vx ax ay az None)) -> holds3 o vx vy vz ax ay az ->
    length pts2 = length pts3 ->
    let (o', r) := highperf_interpolate O mem o (arr2 pts2) in
    r = Err IndexError /\ snd (highperf_interpolate O mem' o' (arr3 pts3)) = Err IndexError.
  Proof.
    intros Hu Hx [_ [bx [by_ [bz [_ [_ [_ [_ [Ey Ez]]]]]]]]] Hl.
    unfold highperf_interpolate at 1. change (mcols (arr2 pts2)) with 2. unfold ensure_buffers. rewrite Hu.
    cbn [h_x h_y h_z Nat.eqb]. rewrite Hx, Ey. unfold run_x, call_component. cbn [h_u].
    unfold call3d. cbn [i3_buffer i3_x i3_y i3_z i3_v]. unfold grid_buffer.
    change (mcols (arr2 pts2)) with 2. rewrite junk_arr2.
    set (bs := map _ (seq 0 (nrows (arr2 pts2)))).
    assert (Lb : length bs = length pts2).
    { unfold bs. rewrite map_length, seq_length. apply arr2_nrows. }
    assert (Lx : forall a (f : T * T -> T), length (map (to_grid O a) (map f pts2)) = length bs).
    { intros. rewrite !map_length. congruence. }
    unfold fill_col at 1. rewrite get_col2_0. cbn [bind].
    rewrite (set_col2_0 bs) by apply Lx. cbn [bind].
    unfold fill_col at 1. rewrite get_col2_1. cbn [bind].
    rewrite set_col2_1 by (rewrite zip_length2 by apply Lx; apply Lx). cbn [bind].
    unfold fill_col at 1. unfold get_col at 1. change (mcols (arr2 pts2)) with 2. cbn [Nat.ltb Nat.leb bind].
    split; [reflexivity|].
    unfold set_x. cbn [h_shape h_velocities h_points h_u h_v h_w h_y h_z].
    match goal with |- snd (highperf_interpolate O mem' ?x _) = _ => set (O1 := x) end.
    assert (EB : ensure_buffers mem' O1 (nrows (arr3 pts3)) 3 = O1).
    { unfold ensure_buffers, O1. cbn [h_u]. unfold junk_list at 1.
      rewrite map_length, seq_length, arr2_nrows, arr3_nrows, Hl, Nat.eqb_refl. reflexivity. }
    unfold highperf_interpolate. change (mcols (arr3 pts3)) with 3. cbv iota. rewrite EB. unfold O1.
    cbn [h_x h_y h_z]. rewrite Ez. unfold run_x, call_component. cbn [h_u].
    unfold call3d. cbn [i3_buffer i3_x i3_y i3_z i3_v]. unfold grid_buffer.
    rewrite arr2_nrows, arr3_nrows, Lb, Hl, Nat.eqb_refl.
    assert (L3 : forall a (f : T * T * T -> T), length (map (to_grid O a) (map f pts3)) = length bs).
    { intros. rewrite !map_length. congruence. }
    unfold fill_col at 1. rewrite get_col3_0. cbn [bind]. rewrite (set_col2_0 bs) by apply L3. cbn [bind].
    unfold fill_col at 1. rewrite get_col3_1. cbn [bind].
    rewrite set_col2_1 by (rewrite zip_length2 by apply L3; apply L3). cbn [bind].
    unfold fill_col at 1. rewrite get_col3_2. cbn [bind]. unfold set_col at 1.
    change (mcols (arr2 _)) with 2. cbn [Nat.ltb Nat.leb negb]. reflexivity.
  Qed.
End Hist.
