(** Model of src/pyftle/file_readers.py. *)
From Verif Require Import Base Num NdArray Particles.

(** scipy.io.loadmat of one file: variable name to array.  Simplification: numeric arrays only (file_readers.py:60, 103, 154). *)
Definition matfile (T : Type) : Type := string -> option (nd T).

(** loadmat on a path: the contents or the exception it raises (missing or corrupt file).
    Simplification: the files are not changed by anybody during a run (file_readers.py:60, 103, 154). *)
Definition filesystem (T : Type) : Type := string -> res (matfile T).

(** np.stack of one-dimensional arrays: ValueError if there are none or the lengths differ (file_readers.py:74-76, 116-118). *)
Definition stack {A} (rows : list (list A)) : res (mat A) :=
  match rows with
  | [] => Err ValueError
  | r :: rest =>
      if forallb (fun x => length x =? length r) rest then Ok (Mat (length r) rows) else Err ValueError
  end.

(** np.concatenate(arrays, axis=0): ValueError unless there is an array, all have the same number
    of dimensions (at least one) and agree in all but the first (file_readers.py:175-180). *)
Definition concat0 {A} (l : list (nd A)) : res (nd A) :=
  match l with
  | [] => Err ValueError
  | a :: _ =>
      match shape a with
      | [] => Err ValueError
      | _ :: tail =>
          if forallb (fun b => match shape b with
                               | [] => false
                               | _ :: t => if list_eq_dec Nat.eq_dec t tail then true else false
                               end) l
          then Ok (Nd (fold_right (fun b n => hd 0 (shape b) + n) 0 l :: tail) (concat (map data l)))
          else Err ValueError
      end
  end.

(** A two-dimensional array as a list of rows (file_readers.py:165-180). *)
Definition mat_of_nd {A} (a : nd A) : option (mat A) :=
  match shape a with
  | [r; c] => Some (Mat c (chunks r c (data a)))
  | _ => None
  end.

Section Readers.
  Context {T : Type} (O : ops T).

  (** file_readers.py:35-76. *)
  Definition read_velocity (data : matfile T) : res (mat T) :=
    match data "velocity_x"%string, data "velocity_y"%string with
    | Some x, Some y =>
        match data "velocity_z"%string with
        | Some z => stack [ravel_c x; ravel_c y; ravel_c z]
        | None => stack [ravel_c x; ravel_c y]
        end
    | _, _ => Err ValueError
    end.

  (** file_readers.py:79-118. *)
  Definition read_coordinate (data : matfile T) : res (mat T) :=
    match data "coordinate_x"%string, data "coordinate_y"%string with
    | Some x, Some y =>
        match data "coordinate_z"%string with
        | Some z => stack [ravel_c x; ravel_c y; ravel_c z]
        | None => stack [ravel_c x; ravel_c y]
        end
    | _, _ => Err ValueError
    end.

  (** file_readers.py:121-182.  Simplification: an array that is not two-dimensional is reported as
      [External 0]; loadmat returns at least two dimensions, and Python would go on with the
      further ones. *)
  Definition read_seed_particles_coordinates (data : matfile T) : res (particles T) :=
    match data "left"%string, data "right"%string, data "top"%string, data "bottom"%string with
    | Some lft, Some rgt, Some top, Some bottom =>
        let* positions :=
          match data "front"%string, data "back"%string with
          | Some front, Some back => concat0 [lft; rgt; top; bottom; front; back]
          | _, _ => concat0 [lft; rgt; top; bottom]
          end in
        match mat_of_nd positions with
        | Some m => mk_particles O m
        | None => Err (External 0)
        end
    | _, _, _, _ => Err ValueError
    end.
End Readers.
