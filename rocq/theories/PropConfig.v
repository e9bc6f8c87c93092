(** Properties C80 to C82: hyperparameters.py, decorators.py and the construction of the manager in __main__.py. *)
From Coq Require Import Reals.
From Verif Require Import Base Num Integrate Interpolate Writers FileUtils Hyper SpecConfig HyperFacts Decorators Manager ManagerFacts.
Open Scope string_scope.

(** C80.  The strings accepted are the comma-separated lists of two or three positive integers; a last 1 is dropped. *)
Theorem C80_accepts : forall s t, parse_tuple s = Ok t <->
  exists zs, integers s zs /\ (length zs = 2 \/ length zs = 3) /\ (forall z, In z zs -> (0 < z)%Z) /\
             t = if (last zs 0 =? 1)%Z then removelast zs else zs.
Proof. exact parse_iff. Qed.
Print Assumptions C80_accepts.

(** All others are refused with ValueError. *)
Theorem C80_rejects : forall s, parse_tuple s = Err ValueError <->
  ~ exists zs, integers s zs /\ (length zs = 2 \/ length zs = 3) /\ forall z, In z zs -> (0 < z)%Z.
Proof. exact parse_rejects. Qed.
Print Assumptions C80_rejects.

(** The result does not always have two or three entries. *)
Theorem C80_refuted : exists s t, parse_tuple s = Ok t /\ length t = 1.
Proof. exact parse_refuted. Qed.
Print Assumptions C80_refuted.

(** It has, unless two integers were given and the second is 1. *)
Theorem C80_shape_partial : forall s t zs, parse_tuple s = Ok t -> integers s zs -> ~ (length zs = 2 /\ last zs 0%Z = 1%Z) ->
  (length t = 2 \/ length t = 3) /\ forall z, In z t -> (0 < z)%Z.
Proof. exact parse_shape. Qed.
Print Assumptions C80_shape_partial.

Example C80_case : integers "128, 128 ,256" [128; 128; 256]%Z /\ parse_tuple "128, 128 ,256" = Ok [128; 128; 256]%Z /\
  parse_tuple "10,20,1" = Ok [10; 20]%Z /\ parse_tuple "10;20" = Err ValueError /\ parse_tuple "10,-2" = Err ValueError.
Proof. exact (conj integers_case (conj eq_refl (conj eq_refl (conj eq_refl eq_refl)))). Qed.

(** C81.  A command line that argparse accepts, without one of the three options, ends in an exception. *)
Theorem C81_refuted : forall scp : scipy R,
  (exists a, parse_args to_float (cl None (Some "cubic") (Some "mat")) = Ok a /\ manager_init Rops scp texts a = Err AttributeError) /\
  (exists a, parse_args to_float (cl (Some "euler") None (Some "mat")) = Ok a /\ manager_init Rops scp texts a = Err AttributeError) /\
  (exists a, parse_args to_float (cl (Some "euler") (Some "cubic") None) = Ok a /\ manager_init Rops scp texts a = Err ValueError).
Proof. exact (fun scp => conj (omitted_integrator scp) (conj (omitted_interpolator scp) (omitted_format scp))). Qed.
Print Assumptions C81_refuted.

(** So it is for every command line: no manager is ever created with one of the three options omitted. *)
Theorem C81_needs_options : forall T (O : ops T) scp parse_float c a texts m,
  parse_args parse_float c = Ok a -> manager_init O scp texts a = Ok m ->
  c_integrator c <> None /\ c_interpolator c <> None /\ c_output_format c <> None.
Proof. exact @needs_options. Qed.
Print Assumptions C81_needs_options.

(** What is given is what is used. *)
Theorem C81_selected : forall T (O : ops T) scp parse_float c a texts m,
  parse_args parse_float c = Ok a -> manager_init O scp texts a = Ok m ->
  c_integrator c = Some (match m_integrator m with Euler _ => "euler" | AB2 _ _ => "ab2" | RK4 _ => "rk4" end) /\
  c_output_format c = Some (match wr_format (m_writer m) with Mat_format => "mat" | Vtk_format => "vtk" end) /\
  wr_path (m_writer m) = path_join "outputs" (experiment_name a).
Proof. exact @selected. Qed.
Print Assumptions C81_selected.

Theorem C81_interpolator : forall T (O : ops T) scp parse_float c a texts m,
  parse_args parse_float c = Ok a -> manager_init O scp texts a = Ok m ->
  match m_interpolator m with
  | ICubic _ => c_interpolator c = Some "cubic" /\ flow_grid_shape a = None
  | ILinear _ => c_interpolator c = Some "linear" /\ flow_grid_shape a = None
  | INearest _ => c_interpolator c = Some "nearest" /\ flow_grid_shape a = None
  | IGrid g => c_interpolator c = Some (g_method g) /\ g_method g <> "grid" /\
               exists t, flow_grid_shape a = Some t /\ g_shape g = map Z.to_nat t
  | IHigh h => c_interpolator c = Some "grid" /\ exists t, flow_grid_shape a = Some t /\ h_shape h = map Z.to_nat t
  | IAnalytical _ => False
  end.
Proof. exact @selected_interpolator. Qed.
Print Assumptions C81_interpolator.

(** With the three options and readable lists of files, the manager is created, except with the interpolator [grid] and no
    shape of the grid. *)
Theorem C81_created : forall T (O : ops T) scp parse_float c a texts,
  parse_args parse_float c = Ok a ->
  (exists ls lc lp, get_files_list (texts (list_velocity_files a)) = Ok (map Some ls) /\
     get_files_list (texts (list_coordinate_files a)) = Ok (map Some lc) /\
     get_files_list (texts (list_particle_files a)) = Ok (map Some lp)) ->
  c_integrator c <> None -> c_interpolator c <> None -> c_output_format c <> None ->
  (exists m, manager_init O scp texts a = Ok m) <-> (c_interpolator c = Some "grid" -> c_flow_grid_shape c <> None).
Proof. exact @created. Qed.
Print Assumptions C81_created.

(** The one default that works: a single process. *)
Theorem C81_processes_partial : forall T (O : ops T) scp parse_float c a texts m,
  parse_args parse_float c = Ok a -> manager_init O scp texts a = Ok m -> c_num_processes c = None -> m_processes m = 1%Z.
Proof. exact @default_processes. Qed.
Print Assumptions C81_processes_partial.

Example C81_case : forall scp : scipy R,
  exists a m, parse_args to_float (cl (Some "euler") (Some "cubic") (Some "mat")) = Ok a /\ manager_init Rops scp texts a = Ok m /\
    m_processes m = 1%Z /\ m_snapshots m = ["v.txt"] /\ wr_shape (m_writer m) = Some [10; 20].
Proof. exact all_given. Qed.

(** C82.  The days, hours, minutes and seconds between two instants ([elapsed] in SpecConfig.v). *)
Theorem C82_duration : forall dt1 dt2, elapsed dt1 dt2 (dhms_from_seconds (date_diff_in_seconds dt2 dt1)).
Proof. exact duration. Qed.
Print Assumptions C82_duration.

(** The decorator returns what the function returns and raises what it raises; if the function returns, it prints the time
    between start and end, and otherwise nothing. *)
Theorem C82_time_it : forall A t1 t2 (r : res A),
  snd (time_it t1 t2 r) = r /\
  (forall a, r = Ok a -> exists d, fst (time_it t1 t2 r) = [d] /\ elapsed t1 t2 d) /\ (forall e, r = Err e -> fst (time_it t1 t2 r) = []).
Proof. exact @time_it_transparent. Qed.
Print Assumptions C82_time_it.

Example C82_case : dhms_from_seconds (date_diff_in_seconds 90061500000 0) = (1, 1, 1, 1)%Z.
Proof. exact eq_refl. Qed.
