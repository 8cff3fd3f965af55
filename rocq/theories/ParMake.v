(** make -j (Makefile:86-216): the recipes of the goals of "make", run at the same time where the prerequisites allow it. *)
From Coq Require Import String List Bool.
From Verif Require Import Params Build.
Import ListNotations.

(** The lines of the recipes.  Simplification: each line is one indivisible action. *)
Inductive cmd :=
| CC (x : obj)          (* $(CC) -c $(CFLAGS) $< -o $@, Makefile:90-104; mkdir -p of the directory does not matter *)
| RM (v : variant)      (* rm -rf frodo640, Makefile:146, 152, 158 *)
| MKDIR (v : variant)   (* mkdir frodo640, Makefile:147, 153, 159 *)
| AR (v : variant)      (* $(AR) frodo640/libfrodo.a $^, Makefile:148, 154, 160 *)
| RANLIB (v : variant)  (* $(RANLIB) frodo640/libfrodo.a, Makefile:149, 155, 161 *)
| LINK (v : variant)    (* $(CC) ... -lfrodo ... -o frodo640/test_KEM, Makefile:164-166 *)
| AR_K (v : variant)    (* $(AR) frodo640/libfrodo_for_testing.a $^, Makefile:169, 173, 177 *)
| RANLIB_K (v : variant)(* $(RANLIB) frodo640/libfrodo_for_testing.a, Makefile:170, 174, 178 *)
| LINK_K (v : variant). (* $(CC) ... -lfrodo_for_testing ... -o frodo640/PQCtestKAT_kem (or _shake), Makefile:182-188 *)
(** The files of one of the directories frodo640, frodo976, frodo1344: libfrodo.a, libfrodo_for_testing.a, test_KEM and
    PQCtestKAT_kem (with _shake if A is made with SHAKE), each as the members it is made of. *)
Record dir := { d_lib : option archive; d_kat : option archive; d_test : option archive; d_katprog : option archive }.
(** A directory just made, Makefile:147. *)
Definition empty_dir : dir := {| d_lib := None; d_kat := None; d_test := None; d_katprog := None |}.
(** The object files and the three directories. *)
Record tree := { t_objs : files; t_dir : variant -> option dir }.
(** Directory v becomes d (Makefile:146-147 and the lines that make a file in it). *)
Definition put_dir (T : tree) (v : variant) (d : option dir) : tree :=
  {| t_objs := t_objs T; t_dir := fun w => if variant_eq_dec v w then d else t_dir T w |}.
(** ar rcs (Makefile:54) on an archive that may be there or not. *)
Definition ar_rcs (old : option archive) (new : archive) : archive := ar_r (match old with Some a => a | None => [] end) new.
(** The compiler as a linker, Makefile:164-166, 182-188: the program p of the variant v with the archive a. *)
Definition link_with (o : options) (p : program) (v : variant) (a : archive) : option archive :=
  match config_h (defines o) with
  | Some M => link (prog_defs p) (prog_refs p v M) a (openssl_syms o)
  | None => None
  end.
(** One line of a recipe with the options o, Makefile:90-189.  None: it fails, and make stops. *)
Definition exec_cmd (o : options) (c : cmd) (T : tree) : option tree :=
  match c with
  | CC x =>
      (* not run if the object file is there: the sources do not change *)
      match config_h (defines o) with
      | Some M => Some {| t_objs := compile1 M (t_objs T) x; t_dir := t_dir T |}
      | None => None
      end
  | RM v => Some (put_dir T v None)
  | MKDIR v => match t_dir T v with None => Some (put_dir T v (Some empty_dir)) | Some _ => None end
  | AR v =>
      match t_dir T v, archive_of (t_objs T) (lib_objs v o) with
      | Some d, Some new =>
          Some (put_dir T v (Some {| d_lib := Some (ar_rcs (d_lib d) new); d_kat := d_kat d; d_test := d_test d; d_katprog := d_katprog d |}))
      | _, _ => None
      end
  | RANLIB v => match t_dir T v with Some d => match d_lib d with Some _ => Some T | None => None end | None => None end
  | LINK v =>
      match t_dir T v with
      | Some d =>
          match d_lib d with
          | Some a =>
              match link_with o TestKEM v a with
              | Some l => Some (put_dir T v (Some {| d_lib := d_lib d; d_kat := d_kat d; d_test := Some l; d_katprog := d_katprog d |}))
              | None => None
              end
          | None => None
          end
      | None => None
      end
  | AR_K v =>
      match t_dir T v, archive_of (t_objs T) (kat_objs v o) with
      | Some d, Some new =>
          Some (put_dir T v (Some {| d_lib := d_lib d; d_kat := Some (ar_rcs (d_kat d) new); d_test := d_test d; d_katprog := d_katprog d |}))
      | _, _ => None
      end
  | RANLIB_K v => match t_dir T v with Some d => match d_kat d with Some _ => Some T | None => None end | None => None end
  | LINK_K v =>
      match t_dir T v with
      | Some d =>
          match d_kat d with
          | Some a =>
              match link_with o TestKAT v a with
              | Some l => Some (put_dir T v (Some {| d_lib := d_lib d; d_kat := d_kat d; d_test := d_test d; d_katprog := Some l |}))
              | None => None
              end
          | None => None
          end
      | None => None
      end
  end.

(** The targets that "make" makes, Makefile:88-189. *)
Inductive job := JObj (x : obj) | JLib (v : variant) | JTests | JKLib (v : variant) | JKats.
(** Equality of targets is decidable. *)
Definition job_eq_dec (a b : job) : {a = b} + {a <> b}.
Proof. decide equality; [apply obj_eq_dec|apply variant_eq_dec|apply variant_eq_dec]. Defined.
(** Their recipes, Makefile:90-104, 145-161, 163-166, 168-178, 180-189. *)
Definition recipe (j : job) : list cmd :=
  match j with
  | JObj x => [CC x]
  | JLib v => [RM v; MKDIR v; AR v; RANLIB v]
  | JTests => [LINK V640; LINK V976; LINK V1344]
  | JKLib v => [AR_K v; RANLIB_K v]
  | JKats => [LINK_K V640; LINK_K V976; LINK_K V1344]
  end.
(** Their prerequisites that are made, the same lines. *)
Definition prereqs (o : options) (j : job) : list job :=
  match j with
  | JObj _ => []
  | JLib v => map JObj (lib_objs v o)
  | JTests => [JLib V640; JLib V976; JLib V1344]
  | JKLib v => map JObj (kat_objs v o)
  | JKats => [JKLib V640; JKLib V976; JKLib V1344]
  end.
(** The prerequisites of all, Makefile:88. *)
Definition goals : list job := [JLib V640; JLib V976; JLib V1344; JTests; JKats].
(** A target: not begun, with the lines of its recipe that are still to be run, or given up after a line failed. *)
Inductive progress := Waiting | Running (l : list cmd) | Failed.
(** A run of make: the files, the targets, and whether a line has failed. *)
Record world := { w_tree : tree; w_job : job -> progress; w_stop : bool }.
(** Target j becomes p. *)
Definition set_job (f : job -> progress) (j : job) (p : progress) : job -> progress :=
  fun k => if job_eq_dec j k then p else f k.
(** The target is made. *)
Definition done (p : progress) : bool := match p with Running [] => true | _ => false end.
(** A turn of the target j: its recipe is begun when all prerequisites are made and nothing has failed (make waits for the
    recipes that are running then, and begins no others), or the next line of it is run. *)
Definition turn (o : options) (w : world) (j : job) : world :=
  match w_job w j with
  | Waiting =>
      if negb (w_stop w) && forallb (fun k => done (w_job w k)) (prereqs o j)
      then {| w_tree := w_tree w; w_job := set_job (w_job w) j (Running (recipe j)); w_stop := w_stop w |} else w
  | Running [] => w
  | Running (c :: l) =>
      match exec_cmd o c (w_tree w) with
      | Some T => {| w_tree := T; w_job := set_job (w_job w) j (Running l); w_stop := w_stop w |}
      | None => {| w_tree := w_tree w; w_job := set_job (w_job w) j Failed; w_stop := true |}
      end
  | Failed => w
  end.
(** make with the options o begins with the files T. *)
Definition begin (T : tree) : world := {| w_tree := T; w_job := fun _ => Waiting; w_stop := false |}.
(** A run of make: whose turn it is, one after the other.  make -j n is one that has at most n targets running. *)
Definition make_j (o : options) (T : tree) (sched : list job) : world := fold_left (turn o) sched (begin T).
(** make exits with 0: all goals (Makefile:88) are made. *)
Definition exit0 (w : world) : bool := forallb (fun j => done (w_job w j)) goals.
(** The program p of the variant v among the files: test_KEM or PQCtestKAT_kem, Makefile:163-189. *)
Definition program_in (T : tree) (p : program) (v : variant) : option archive :=
  match t_dir T v with
  | Some d => match p with TestKEM => d_test d | TestKAT => d_katprog d end
  | None => None
  end.
(** make without -j, Makefile:88: the goals in the order of the line, each after its prerequisites; each target has enough turns. *)
Definition serial (o : options) : list job :=
  let whole j := repeat j (Datatypes.S (List.length (recipe j))) in
  let with_objs j := (concat (map whole (prereqs o j)) ++ whole j)%list in
  (with_objs (JLib V640) ++ with_objs (JLib V976) ++ with_objs (JLib V1344) ++ whole JTests ++
   with_objs (JKLib V640) ++ with_objs (JKLib V976) ++ with_objs (JKLib V1344) ++ whole JKats)%list.
