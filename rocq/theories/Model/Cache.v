(** The cache of data files: ephemeris/simulation_setup.py, simulation_parsing.py,
    simulation_data_files.py, utilities/generate_meta_kernel.py,
    utilities/retrieve_ephemeris_data_files.py and sorcha_cmdline/bootstrap.py.
    One cache directory; its files by name.  SPICE and ASSIST are left out: what
    they are given is the observable. *)
From Coq Require Import String List Bool Arith.
From Verif Require Import Base.Prelude Model.Config.
Import ListNotations.
Open Scope list_scope.

(** Contents of a file: downloaded data, or a meta kernel as written by
    utilities/generate_meta_kernel.py:68-77 (directory, file names without the
    symbol of the directory, and whether the closing lines 76-77 are there; text
    and symbol are the subject of Model/Files.v). *)
Inductive content :=
| Data (d : string)
| Meta (dir : string) (names : list string) (closed : bool).

(** The attributes of [auxiliaryConfigs] used here, utilities/sorchaConfigs.py:1107-1154. *)
Record aux := {
  a_urls : list (string * string);  a_files : list string;  a_download : list string;
  a_kernels : list string;  a_meta : string;  a_codes : string;  a_codes_gz : string;
  a_planets : string;  a_small : string }.

(** utilities/sorchaConfigs.py:964-1021, the default name of an attribute. *)
Definition default_name (attr : string) : string :=
  match find (fun d => String.eqb (df_attr d) attr) datafiles with Some d => df_name d | None => "" end.
(** utilities/sorchaConfigs.py:1107-1154, from a section AUXILIARY. *)
Definition aux_of (s : section) : aux :=
  let name a := given s a (default_name a) in
  let meta := given s "meta_kernel" "meta_kernel.txt" in
  let codes := given s "observatory_codes" "ObsCodes.json" in
  {| a_urls := urls s;
     a_files := [name "planet_ephemeris"; name "earth_predict"; name "earth_historical"; name "earth_high_precision";
                 name "jpl_planets"; name "jpl_small_bodies"; name "leap_seconds"; meta; codes;
                 name "observatory_codes_compressed"; name "orientation_constants"];
     a_download := [name "planet_ephemeris"; name "earth_predict"; name "earth_historical"; name "earth_high_precision";
                    name "jpl_planets"; name "jpl_small_bodies"; name "leap_seconds";
                    name "observatory_codes_compressed"; name "orientation_constants"];
     a_kernels := [name "leap_seconds"; name "earth_historical"; name "earth_predict"; name "orientation_constants";
                   name "planet_ephemeris"; name "earth_high_precision"];
     a_meta := meta; a_codes := codes; a_codes_gz := name "observatory_codes_compressed";
     a_planets := name "jpl_planets"; a_small := name "jpl_small_bodies" |}%string.

(** The files of the cache and the number of downloads tried so far. *)
Record world := { w_file : string -> option content; w_tried : nat }.
(** [open(path, "w")] and the renaming of a downloaded file. *)
Definition save (n : string) (c : content) (w : world) : world :=
  {| w_file := fun k => if String.eqb k n then Some c else w_file w k; w_tried := w_tried w |}.
(** [os.remove], utilities/retrieve_ephemeris_data_files.py:51. *)
Definition remove (n : string) (w : world) : world :=
  {| w_file := fun k => if String.eqb k n then None else w_file w k; w_tried := w_tried w |}.
(** [os.path.exists], ephemeris/simulation_setup.py:104. *)
Definition exists_file (w : world) (n : string) : bool := match w_file w n with Some _ => true | None => false end.

Section Cache.
(** The network: the answer to the n-th download of a URL (with its 25 further
    tries, ephemeris/simulation_data_files.py:29); [None] is a failure. *)
Variable net : nat -> string -> option string.
(** [pooch.Decompress]; [None] for damaged files. *)
Variable unzip : string -> option string.
(** The cache directory, ephemeris/simulation_data_files.py:20-22. *)
Variable dir : string.

(** What a step leaves behind, and its outcome. *)
Definition act (A : Type) := world -> world * result A.
(** Sequencing of statements. *)
Definition andthen {A B} (p : act A) (k : A -> act B) : act B :=
  fun w => let '(w', r) := p w in match r with Ok a => k a w' | Err e => (w', Err e) end.
(** A value without effect. *)
Definition give {A} (a : A) : act A := fun w => (w, Ok a).
(** The contents of a file opened by its path. *)
Definition contents (n : string) : act content :=
  fun w => (w, match w_file w n with Some c => Ok c | None => Err OSError end).

(** [Pooch.fetch] without processor, with the registry of
    utilities/sorchaConfigs.py:1154 (no checksums) and [base_url=""]: a file that
    is there is taken; a file without URL cannot be downloaded.  The answer tells
    whether the file was downloaded. *)
Definition fetch (a : aux) (n : string) : act bool := fun w =>
  if negb (existsb (String.eqb n) (a_files a)) then (w, Err ValueError)
  else if exists_file w n then (w, Ok false)
  else match url_for (a_urls a) n with
       | None => (w, Err ValueError)
       | Some u =>
           let w1 := {| w_file := w_file w; w_tried := S (w_tried w) |} in
           match net (w_tried w) u with Some d => (save n (Data d) w1, Ok true) | None => (w1, Err OSError) end
       end.
(** [Pooch.fetch] with [Decompress(name=target)], ephemeris/simulation_parsing.py:307-310:
    unpacks after a download or when the target is missing. *)
Definition fetch_unzip (a : aux) (n target : string) : act unit :=
  andthen (fetch a n) (fun new w =>
    if new || negb (exists_file w target) then
      match w_file w n with
      | Some (Data d) => match unzip d with Some x => (save target (Data x) w, Ok tt) | None => (w, Err OSError) end
      | _ => (w, Err OSError)
      end
    else (w, Ok tt)).
(** [for file in files: fetch(file)], ephemeris/simulation_setup.py:100-101. *)
Fixpoint fetch_all (a : aux) (l : list string) : act unit :=
  match l with [] => give tt | n :: rest => andthen (fetch a n) (fun _ => fetch_all a rest) end.

(** utilities/generate_meta_kernel.py:73-77; [done] are the names written. *)
Fixpoint write_names (a : aux) (done l : list string) : act unit :=
  match l with
  | [] => fun w => (save (a_meta a) (Meta dir done true) w, Ok tt)
  | n :: rest => andthen (fetch a n) (fun _ w =>
      write_names a (done ++ [n]) rest (save (a_meta a) (Meta dir (done ++ [n]) false) w))
  end.
(** utilities/generate_meta_kernel.py:49-77: the file is opened first. *)
Definition build_meta_kernel_file (a : aux) : act unit := fun w =>
  write_names a [] (a_kernels a) (save (a_meta a) (Meta dir [] false) w).

(** ephemeris/simulation_setup.py:82-118; the answer is what [spice.furnsh] is given. *)
Definition furnish_spiceypy (a : aux) : act content :=
  andthen (fetch_all a (a_kernels a)) (fun _ =>
  andthen (fun w => if exists_file w (a_meta a) then give tt w else build_meta_kernel_file a w) (fun _ =>
  andthen (fun w => match fetch a (a_meta a) w with
                    | (w', Err ValueError) => (w', Err SysExit)
                    | r => r
                    end) (fun _ => contents (a_meta a)))).
(** ephemeris/simulation_setup.py:69-72; the answer is what ASSIST is given. *)
Definition create_assist_ephemeris (a : aux) : act (content * content) :=
  andthen (fetch a (a_planets a)) (fun _ =>
  andthen (fetch a (a_small a)) (fun _ =>
  andthen (contents (a_planets a)) (fun p => andthen (contents (a_small a)) (fun s => give (p, s))))).
(** ephemeris/simulation_parsing.py:298-322, up to the reading of the file. *)
Definition observatory_codes (a : aux) : act content :=
  andthen (fun w => if exists_file w (a_codes a) then fetch_all a [a_codes a] w
                    else fetch_unzip a (a_codes_gz a) (a_codes a) w) (fun _ => contents (a_codes a)).
(** ephemeris/simulation_setup.py:211-215 and simulation_driver.py:125-130: the
    planets, small bodies, meta kernel and observatory codes in use. *)
Definition setup (a : aux) : act (content * content * content * content) :=
  andthen (create_assist_ephemeris a) (fun ps =>
  andthen (furnish_spiceypy a) (fun m =>
  andthen (observatory_codes a) (fun c => give (ps, m, c)))).

(** utilities/retrieve_ephemeris_data_files.py:48-51. *)
Fixpoint remove_files (a : aux) (l : list string) : act unit :=
  match l with
  | [] => give tt
  | n :: rest => andthen (fetch a n) (fun _ w => remove_files a rest (remove n w))
  end.
(** [os.path.splitext] of line 30, for the name of the compressed file. *)
Definition unpacked (n : string) : option string :=
  let cut ext := let k := String.length n - String.length ext in
    if (0 <? k)%nat && String.eqb (String.substring k (String.length ext) n) ext then Some (String.substring 0 k n) else None in
  match cut ".gz"%string, cut ".bz2"%string, cut ".xz"%string with
  | Some x, _, _ => Some x | _, Some x, _ => Some x | _, _, x => x
  end.
(** sorcha_cmdline/bootstrap.py:70-74: one download each; their errors are not
    looked at.  The downloads run in parallel, on files of different names. *)
Fixpoint download (a : aux) (l : list string) : world -> world :=
  match l with
  | [] => fun w => w
  | n :: rest => fun w =>
      let w' := match unpacked n with Some t => fst (fetch_unzip a n t w) | None => fst (fetch a n w) end in
      download a rest w'
  end.
(** utilities/retrieve_ephemeris_data_files.py:54-87. *)
Definition check_for_existing_files (a : aux) (w : world) : bool := forallb (exists_file w) (a_files a).
(** sorcha_cmdline/bootstrap.py:56-80: always with the default names. *)
Definition bootstrap (force : bool) : act unit :=
  let a := aux_of [] in
  andthen (if force then andthen (remove_files a (a_files a)) (fun _ => give false)
           else fun w => (w, Ok (check_for_existing_files a w)))
    (fun found => if found then give tt else fun w => build_meta_kernel_file a (download a (a_download a) w)).
End Cache.
