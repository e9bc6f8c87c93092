(** Lemmas about Decorators.v and Manager.v. *)
From Coq Require Import Lia Lra Reals.
From Verif Require Import Base Num NdArray Particles Integrate Interpolate DataSource Solver Writers Batches FileUtils Hyper
  Decorators Manager SpecConfig.

(** ** Durations *)

Lemma diff_floor dt2 dt1 : date_diff_in_seconds dt2 dt1 = ((dt2 - dt1) / 1000000)%Z.
Proof.
  unfold date_diff_in_seconds, timedelta_days, timedelta_seconds. cbv zeta. generalize (dt2 - dt1)%Z. intro u.
  pose proof (Z.div_mod u 86400000000 ltac:(lia)) as E. pose proof (Z.mod_pos_bound u 86400000000 ltac:(lia)) as B.
  set (d := (u / 86400000000)%Z) in *. set (r := (u mod 86400000000)%Z) in *.
  rewrite E. replace (86400000000 * d + r)%Z with (r + (86400 * d) * 1000000)%Z by lia.
  rewrite Z.div_add by lia. lia.
Qed.

Lemma dhms_spec n : let '(d, h, m, s) := dhms_from_seconds n in
  (n = 86400 * d + 3600 * h + 60 * m + s /\ 0 <= h < 24 /\ 0 <= m < 60 /\ 0 <= s < 60)%Z.
Proof.
  unfold dhms_from_seconds, divmod. cbv beta iota.
  pose proof (Z.div_mod n 60 ltac:(lia)). pose proof (Z.mod_pos_bound n 60 ltac:(lia)).
  pose proof (Z.div_mod (n / 60) 60 ltac:(lia)). pose proof (Z.mod_pos_bound (n / 60) 60 ltac:(lia)).
  pose proof (Z.div_mod (n / 60 / 60) 24 ltac:(lia)). pose proof (Z.mod_pos_bound (n / 60 / 60) 24 ltac:(lia)).
  repeat split; lia.
Qed.

Lemma duration dt1 dt2 : elapsed dt1 dt2 (dhms_from_seconds (date_diff_in_seconds dt2 dt1)).
Proof.
  unfold elapsed. pose proof (dhms_spec (date_diff_in_seconds dt2 dt1)) as H.
  destruct (dhms_from_seconds (date_diff_in_seconds dt2 dt1)) as [[[d h] m] s]. destruct H as (E & Hh & Hm & Hs).
  rewrite diff_floor in E. rewrite <- E.
  pose proof (Z.div_mod (dt2 - dt1) 1000000 ltac:(lia)). pose proof (Z.mod_pos_bound (dt2 - dt1) 1000000 ltac:(lia)).
  repeat split; try lia.
Qed.

Lemma time_it_transparent {A} (t1 t2 : Z) (r : res A) :
  snd (time_it t1 t2 r) = r /\
  (forall a, r = Ok a -> exists d, fst (time_it t1 t2 r) = [d] /\ elapsed t1 t2 d) /\ (forall e, r = Err e -> fst (time_it t1 t2 r) = []).
Proof.
  split; [destruct r; reflexivity|]. split; [intros a ->|intros e ->; reflexivity]. eexists. split; [reflexivity|apply duration].
Qed.

(** ** Options *)

Section Options.
  Context {T : Type} (O : ops T) (scp : scipy T) (parse_float : string -> res T).

  Lemma bind_ok {A B} (x : res A) (f : A -> res B) b : bind x f = Ok b -> exists a, x = Ok a /\ f a = Ok b.
  Proof. destruct x as [a|]; cbn; [eauto|discriminate]. Qed.

  Lemma optional_none {A} (f : string -> res A) : optional f None = Ok None.
  Proof. reflexivity. Qed.
  Lemma optional_choice l o r : optional (choice l) o = Ok r -> r = o /\ match o with Some s => In s l | None => True end.
  Proof.
    destruct o as [s|]; cbn; [|intro H; injection H as <-; auto]. unfold typed, choice.
    destruct (existsb (String.eqb s) l) eqn:E; cbn; [|discriminate]. intro H. injection H as <-. split; [reflexivity|].
    apply existsb_exists in E as (x & Hx & Ex). apply String.eqb_eq in Ex. subst. exact Hx.
  Qed.

  Lemma parse_args_inv c a : parse_args parse_float c = Ok a ->
    integrator_name a = c_integrator c /\ interpolator_name a = c_interpolator c /\ output_format a = c_output_format c /\
    (match c_integrator c with Some s => In s ["rk4"; "euler"; "ab2"]%string | None => True end) /\
    (match c_interpolator c with Some s => In s ["cubic"; "linear"; "nearest"; "grid"]%string | None => True end) /\
    (match c_output_format c with Some s => In s ["mat"; "vtk"]%string | None => True end) /\
    (match c_num_processes c with Some s => py_int s = Ok (num_processes a) | None => num_processes a = 1%Z end) /\
    (match c_flow_grid_shape c with Some s => exists t, parse_tuple s = Ok t /\ flow_grid_shape a = Some t | None => flow_grid_shape a = None end) /\
    (match c_particles_grid_shape c with Some s => exists t, parse_tuple s = Ok t /\ particles_grid_shape a = Some t | None => particles_grid_shape a = None end).
  Proof.
    unfold parse_args. intro H. do 8 (apply bind_ok in H as (? & _ & H)).
    apply bind_ok in H as (i & Hi & H). apply bind_ok in H as (p & Hp & H). apply bind_ok in H as (k & Hk & H).
    apply bind_ok in H as (f & Hf & H). apply bind_ok in H as (g & Hg & H). apply bind_ok in H as (q & Hq & H).
    injection H as <-. cbn [integrator_name interpolator_name output_format num_processes flow_grid_shape particles_grid_shape].
    apply optional_choice in Hi as [-> Hi]. apply optional_choice in Hp as [-> Hp]. apply optional_choice in Hf as [-> Hf].
    assert (Ho : forall A (conv : string -> res A) o r, optional conv o = Ok r ->
              match o with Some s => exists t, conv s = Ok t /\ r = Some t | None => r = None end).
    { intros A conv [s|] r; cbn; unfold typed; [|congruence]. destruct (conv s) as [t|]; cbn; [|discriminate].
      intro E. injection E as <-. eauto. }
    apply Ho in Hk, Hg, Hq. do 6 (split; [auto|]). split.
    - destruct (c_num_processes c); [destruct Hk as (t & Hk & ->); exact Hk|subst k; reflexivity].
    - auto.
  Qed.

  Lemma init_inv texts a m : manager_init O scp texts a = Ok m ->
    exists i g f, interpolator_name a = Some i /\ integrator_name a = Some g /\ output_format a = Some f /\
      create_interpolator O scp i (shape_of (flow_grid_shape a)) None = Ok (m_interpolator m) /\
      create_integrator g = Ok (m_integrator m) /\
      create_writer f (path_join "outputs" (experiment_name a)) (shape_of (particles_grid_shape a)) = Ok (m_writer m) /\
      m_processes m = num_processes a.
  Proof.
    unfold manager_init. intro H. do 3 (apply bind_ok in H as (? & _ & H)).
    apply bind_ok in H as (i & Hi & H). apply bind_ok in H as (g & Hg & H). apply bind_ok in H as (f & Hf & H).
    do 3 (apply bind_ok in H as (? & _ & H)). injection H as <-.
    cbn [m_interpolator m_integrator m_writer m_processes].
    destruct (interpolator_name a) as [ni|]; [|discriminate]. destruct (integrator_name a) as [ng|]; [|discriminate].
    destruct (output_format a) as [nf|]; [|discriminate]. exists ni, ng, nf. repeat split; auto.
  Qed.

  (** The program does not get past __init__ unless the three options are given. *)
  Lemma needs_options c a texts m : parse_args parse_float c = Ok a -> manager_init O scp texts a = Ok m ->
    c_integrator c <> None /\ c_interpolator c <> None /\ c_output_format c <> None.
  Proof.
    intros Ha Hm. apply parse_args_inv in Ha as (E1 & E2 & E3 & _). apply init_inv in Hm as (i & g & f & F1 & F2 & F3 & _).
    rewrite <- E1, <- E2, <- E3, F1, F2, F3. repeat split; discriminate.
  Qed.

  Lemma default_processes c a texts m : parse_args parse_float c = Ok a -> manager_init O scp texts a = Ok m ->
    c_num_processes c = None -> m_processes m = 1%Z.
  Proof.
    intros Ha Hm Hc. apply parse_args_inv in Ha as (_ & _ & _ & _ & _ & _ & E & _). rewrite Hc in E.
    apply init_inv in Hm as (_ & _ & _ & _ & _ & _ & _ & _ & _ & ->). exact E.
  Qed.

  Definition integrator_kind (g : integrator T) : string :=
    match g with Euler _ => "euler" | AB2 _ _ => "ab2" | RK4 _ => "rk4" end.

  Lemma selected c a texts m : parse_args parse_float c = Ok a -> manager_init O scp texts a = Ok m ->
    c_integrator c = Some (integrator_kind (m_integrator m)) /\
    c_output_format c = Some (match wr_format (m_writer m) with Mat_format => "mat" | Vtk_format => "vtk" end)%string /\
    wr_path (m_writer m) = path_join "outputs" (experiment_name a).
  Proof.
    intros Ha Hm. apply parse_args_inv in Ha as (E1 & E2 & E3 & I1 & I2 & I3 & _).
    apply init_inv in Hm as (i & g & f & F1 & F2 & F3 & G1 & G2 & G3 & _).
    rewrite <- E1, F2. rewrite <- E1, F2 in I1. rewrite <- E3, F3. rewrite <- E3, F3 in I3. split.
    - f_equal. destruct I1 as [<-|[<-|[<-|[]]]]; cbn in G2; injection G2 as <-; reflexivity.
    - destruct I3 as [<-|[<-|[]]]; cbn in G3; injection G3 as <-; auto.
  Qed.

  Lemma selected_interpolator c a texts m : parse_args parse_float c = Ok a -> manager_init O scp texts a = Ok m ->
    match m_interpolator m with
    | ICubic _ => c_interpolator c = Some "cubic"%string /\ flow_grid_shape a = None
    | ILinear _ => c_interpolator c = Some "linear"%string /\ flow_grid_shape a = None
    | INearest _ => c_interpolator c = Some "nearest"%string /\ flow_grid_shape a = None
    | IGrid g => c_interpolator c = Some (g_method g) /\ g_method g <> "grid"%string /\
                 exists t, flow_grid_shape a = Some t /\ g_shape g = map Z.to_nat t
    | IHigh h => c_interpolator c = Some "grid"%string /\ exists t, flow_grid_shape a = Some t /\ h_shape h = map Z.to_nat t
    | IAnalytical _ => False
    end.
  Proof.
    intros Ha Hm. apply parse_args_inv in Ha as (E1 & E2 & E3 & I1 & I2 & I3 & _).
    apply init_inv in Hm as (i & g & f & F1 & F2 & F3 & G1 & G2 & G3 & _).
    rewrite <- E2, F1. rewrite <- E2, F1 in I2. unfold shape_of in G1.
    destruct (flow_grid_shape a) as [t|]; cbn [option_map] in G1; destruct I2 as [<-|[<-|[<-|[<-|[]]]]]; cbn in G1;
      (discriminate || (injection G1 as <-; cbn; repeat split; eauto; discriminate)).
  Qed.

  (** The lists of files can be read. *)
  Definition lists_readable (texts : string -> option string) (a : program_args T) : Prop :=
    exists s c p, get_files_list (texts (list_velocity_files a)) = Ok (map Some s) /\
      get_files_list (texts (list_coordinate_files a)) = Ok (map Some c) /\
      get_files_list (texts (list_particle_files a)) = Ok (map Some p).

  Lemma paths_some l : paths (map Some l) = Ok l.
  Proof. unfold paths. induction l as [|x l IH]; cbn; [reflexivity|]. rewrite IH. reflexivity. Qed.

  Lemma created c a texts : parse_args parse_float c = Ok a -> lists_readable texts a ->
    c_integrator c <> None -> c_interpolator c <> None -> c_output_format c <> None ->
    (exists m, manager_init O scp texts a = Ok m) <-> (c_interpolator c = Some "grid"%string -> c_flow_grid_shape c <> None).
  Proof.
    intros Ha (ls & lc & lp & L1 & L2 & L3) N1 N2 N3. split.
    - intros (m & Hm) Hg Hf. pose proof (selected_interpolator c a texts m Ha Hm) as Hs.
      apply parse_args_inv in Ha as (_ & _ & _ & _ & _ & _ & _ & E & _). rewrite Hf in E. rewrite Hg, E in Hs.
      destruct (m_interpolator m); try (destruct Hs; discriminate).
      + destruct Hs as (_ & _ & t & Hs & _). discriminate.
      + destruct Hs as (_ & t & Hs & _). discriminate.
    - intro Hg. apply parse_args_inv in Ha as (E1 & E2 & E3 & I1 & I2 & I3 & _ & E & _).
      destruct (c_integrator c) as [g|]; [|congruence]. destruct (c_interpolator c) as [i|]; [|congruence].
      destruct (c_output_format c) as [f|]; [|congruence]. unfold manager_init. rewrite L1, L2, L3. cbn [bind].
      rewrite E1, E2, E3. cbn [named]. 
      assert (Hi : exists x, create_interpolator O scp i (shape_of (flow_grid_shape a)) None = Ok x).
      { destruct (c_flow_grid_shape c) as [s|].
        - destruct E as (t & _ & ->). destruct I2 as [<-|[<-|[<-|[<-|[]]]]]; eexists; reflexivity.
        - rewrite E. destruct I2 as [<-|[<-|[<-|[<-|[]]]]]; try (eexists; reflexivity). exfalso. exact (Hg eq_refl eq_refl). }
      destruct Hi as (x & ->). assert (Hi : exists y, create_integrator (T := T) g = Ok y).
      { destruct I1 as [<-|[<-|[<-|[]]]]; eexists; reflexivity. }
      destruct Hi as (y & ->).
      assert (Hi : exists z, create_writer f (path_join "outputs" (experiment_name a)) (shape_of (particles_grid_shape a)) = Ok z).
      { destruct I3 as [<-|[<-|[]]]; eexists; reflexivity. }
      destruct Hi as (z & ->). cbn [bind]. rewrite !paths_some. cbn [bind]. eauto.
  Qed.
End Options.

(** ** main *)

Lemma guarded_ok outcome : snd (guarded outcome) = Ok tt <-> outcome = Ok tt \/ exists e, outcome = Err e /\ is_runtime_error e = true.
Proof.
  destruct outcome as [[]|e]; cbn; [split; auto|]. destruct (is_runtime_error e) eqn:E; cbn.
  - split; eauto.
  - split; [discriminate|]. intros [H|(e' & H & E')]; [discriminate|]. injection H as <-. congruence.
Qed.

(** ** A concrete command line *)

Definition cl (integrator interpolator output_format : option string) : command_line :=
  CommandLine (Some "run1") (Some "v.txt") (Some "c.txt") (Some "p.txt") (Some "0.5") (Some "1") integrator interpolator
    None output_format None (Some "10,20,1").
Definition texts (name : string) : option string := Some (append name (String "010" EmptyString)).
Definition to_float (s : string) : res R := if String.eqb s "0.5" then Ok (1/2)%R else Ok 1%R.

Lemma omitted_interpolator (scp : scipy R) :
  exists a, parse_args to_float (cl (Some "euler") None (Some "mat")) = Ok a /\ manager_init Rops scp texts a = Err AttributeError.
Proof. eexists. split; reflexivity. Qed.
Lemma omitted_integrator (scp : scipy R) :
  exists a, parse_args to_float (cl None (Some "cubic") (Some "mat")) = Ok a /\ manager_init Rops scp texts a = Err AttributeError.
Proof. eexists. split; reflexivity. Qed.
Lemma omitted_format (scp : scipy R) :
  exists a, parse_args to_float (cl (Some "euler") (Some "cubic") None) = Ok a /\ manager_init Rops scp texts a = Err ValueError.
Proof. eexists. split; reflexivity. Qed.
Lemma all_given (scp : scipy R) :
  exists a m, parse_args to_float (cl (Some "euler") (Some "cubic") (Some "mat")) = Ok a /\ manager_init Rops scp texts a = Ok m /\
    m_processes m = 1%Z /\ m_snapshots m = ["v.txt"]%string /\ wr_shape (m_writer m) = Some [10; 20].
Proof.
  eexists. eexists. split; [reflexivity|]. unfold manager_init. cbn [bind named]. split; [reflexivity|].
  cbn [m_processes m_snapshots m_writer wr_shape]. split; [reflexivity|]. split; [|reflexivity].
  unfold handle_direction. cbn [snapshot_timestep]. change (o_ltb Rops) with R_ltb. unfold R_ltb. change (o_zero Rops) with 0%R. destruct (Rlt_dec (1 / 2) 0) as [H|H]; [|reflexivity].
  exfalso. lra.
Qed.
