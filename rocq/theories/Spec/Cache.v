(** Vocabulary for statements about the cache of data files. *)
From Coq Require Import String List.
From Verif Require Import Base.Prelude Model.Config Model.Cache.
Import ListNotations.
Open Scope string_scope.

(** The name under [k] in the section, or else [d]. *)
Definition named (s : section) (k d : string) : string :=
  match find (fun e => String.eqb (fst e) k) s with Some (_, v) => v | None => d end.

Section Names.
Variable s : section.
Definition leap_seconds := named s "leap_seconds" "naif0012.tls".
Definition earth_historical := named s "earth_historical" "earth_620120_250826.bpc".
Definition earth_predict := named s "earth_predict" "earth_2025_250826_2125_predict.bpc".
Definition orientation := named s "orientation_constants" "pck00010.pck".
Definition planet_ephemeris := named s "planet_ephemeris" "de440s.bsp".
Definition earth_high_precision := named s "earth_high_precision" "earth_latest_high_prec.bpc".
Definition jpl_planets := named s "jpl_planets" "linux_p1550p2650.440".
Definition jpl_small_bodies := named s "jpl_small_bodies" "sb441-n16.bsp".
Definition meta_kernel := named s "meta_kernel" "meta_kernel.txt".
Definition codes := named s "observatory_codes" "ObsCodes.json".
Definition codes_gz := named s "observatory_codes_compressed" "ObsCodes.json.gz".
(** The SPICE kernels, from the least to the most precise. *)
Definition kernels : list string :=
  [leap_seconds; earth_historical; earth_predict; orientation; planet_ephemeris; earth_high_precision].
Definition all_names : list string := (kernels ++ [jpl_planets; jpl_small_bodies; meta_kernel; codes; codes_gz])%list.
End Names.

Definition present (w : world) (n : string) : Prop := exists c, w_file w n = Some c.
(** The network gives every file; every compressed file can be unpacked. *)
Definition answers (net : nat -> string -> option string) : Prop := forall k u, exists d, net k u = Some d.
Definition sound_zip (unzip : string -> option string) : Prop := forall d, exists x, unzip d = Some x.
(** A compressed file in the cache is a downloaded one. *)
Definition sane (s : section) (w : world) : Prop := forall c, w_file w (codes_gz s) = Some c -> exists d, c = Data d.

(** What commands do to a cache in one directory: runs with any outcome, and
    complete calls of [sorcha bootstrap]. *)
Inductive history (dir : string) : world -> world -> Prop :=
| h_start w : history dir w w
| h_run w net unzip s w1 r w2 : meta_kernel s = meta_kernel [] -> kernels s = kernels [] -> NoDup (all_names s) ->
    setup net unzip dir (aux_of s) w = (w1, r) -> history dir w1 w2 -> history dir w w2
| h_bootstrap w net unzip force w1 w2 :
    bootstrap net unzip dir force w = (w1, Ok tt) -> history dir w1 w2 -> history dir w w2.

(** The place a file is downloaded from. *)
Definition url_table (s : section) : list (string * string) := [
  (leap_seconds s, named s "leap_seconds_url" "https://naif.jpl.nasa.gov/pub/naif/generic_kernels/lsk/naif0012.tls");
  (earth_historical s, named s "earth_historical_url" "https://naif.jpl.nasa.gov/pub/naif/generic_kernels/pck/earth_620120_250826.bpc");
  (earth_predict s, named s "earth_predict_url" "https://naif.jpl.nasa.gov/pub/naif/generic_kernels/pck/earth_2025_250826_2125_predict.bpc");
  (orientation s, named s "orientation_constants_url" "https://naif.jpl.nasa.gov/pub/naif/generic_kernels/pck/pck00010.tpc");
  (planet_ephemeris s, named s "planet_ephemeris_url" "https://naif.jpl.nasa.gov/pub/naif/generic_kernels/spk/planets/de440s.bsp");
  (earth_high_precision s, named s "earth_high_precision_url" "https://naif.jpl.nasa.gov/pub/naif/generic_kernels/pck/earth_latest_high_prec.bpc");
  (jpl_planets s, named s "jpl_planets_url" "https://ssd.jpl.nasa.gov/ftp/eph/planets/Linux/de440/linux_p1550p2650.440");
  (jpl_small_bodies s, named s "jpl_small_bodies_url" "https://ssd.jpl.nasa.gov/ftp/eph/small_bodies/asteroids_de441/sb441-n16.bsp");
  (codes_gz s, named s "observatory_codes_compressed_url" "https://minorplanetcenter.net/Extended_Files/obscodes_extended.json.gz")].

(** The files a run opens. *)
Definition needed (s : section) : list string := (kernels s ++ [jpl_planets s; jpl_small_bodies s; codes s])%list.
