(** Vocabulary of C83_notebook_refuted: the configuration that examples/02_File-based_IO.ipynb gives (lines 361-372 of the file). *)
From Verif Require Import Base Text.
Open Scope string_scope.

Definition notebook_config : list string := [
  "experiment_name: ""example_file-based_IO""";
  "list_velocity_files: ""examples/velocity_filenames.txt""  # assuming you run pyftle from project rootdir";
  "list_coordinate_files: ""examples/coordinate_filenames.txt""  # assuming you run pyftle from project rootdir";
  "list_particle_files: ""examples/particle_filenames.txt""  # assuming you run pyftle from project rootdir";
  "snapshot_timestep: 0.001  # must match your snapshot timestep";
  "flow_map_period: 0.5";
  "integrator: rk4";
  "interpolator: grid";
  "num_processes: 4";
  "output_format: ""vtk""";
  "flow_grid_shape: 100, 50  # comment this line for unstructured data";
  "particles_grid_shape: 100, 50  # comment this line for unstructured data"].
