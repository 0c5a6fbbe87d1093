(** Randomisation of measurements, modules/PPRandomizeMeasurements.py, and the
    generators of utilities/sorchaModuleRNG.py.  Paths are relative to
    /repo/src/sorcha. *)
From Coq Require Import String List Arith ZArith Bool Reals.
From Verif Require Import Base.Prelude Model.Sphere.
Import ListNotations.
Open Scope nat_scope.

(** ** utilities/sorchaModuleRNG.py *)
Section Rng.
(** A numpy generator, its seeding, and one request of numbers from it. *)
Context {G Q A : Type}.
Variable default_rng : Z -> G.
Variable draw : G -> Q -> G * A.
(** int(md5(name), base=16). *)
Variable md5 : string -> Z.

(** Line 44. *)
Definition module_seed (base : Z) (name : string) : Z := ((base + md5 name) mod 2 ^ 31)%Z.

(** The dictionary [_rngs]; later entries first. *)
Definition rngs := list (string * G).
(** Lines 39-40. *)
Fixpoint lookup (name : string) (r : rngs) : option G :=
  match r with
  | [] => None
  | (n, g) :: r' => if String.eqb n name then Some g else lookup name r'
  end.
(** Lines 24-51 followed by a request on the generator, whose state is shared
    with the dictionary. *)
Definition request (base : Z) (r : rngs) (name : string) (q : Q) : rngs * A :=
  let g := match lookup name r with Some g => g | None => default_rng (module_seed base name) end in
  let (g', a) := draw g q in ((name, g') :: r, a).
(** A sequence of requests by modules, with the answers. *)
Fixpoint requests (base : Z) (r : rngs) (l : list (string * Q)) : list (string * A) :=
  match l with
  | [] => []
  | (n, q) :: l' => let (r', a) := request base r n q in (n, a) :: requests base r' l'
  end.
End Rng.

(** ** Randomising a table *)

(** The columns involved; angles in degrees. *)
Record meas := {
  m_ra : R; m_dec : R; m_trailed : option R; m_psf : option R;
  m_ra_true : option R; m_dec_true : option R;
  m_trailed_true : R; m_psf_true : R;
  m_sig_trailed : R; m_sig_psf : R; m_sig_ast : R; m_snr : R }.

Section Table.
(** Draws for row [i]: the two photometric ones and the astrometric one. *)
Variables (s1 s2 : nat -> R) (g : nat -> vec).
Variable trailing_losses_on : bool.

(** Lines 77-92 for the row at position [i]: lines 194-197 keep the old
    position under the new names. *)
Definition randomize_row (i : nat) (r : meas) : meas :=
  let t := randomizePhotometry (m_trailed_true r) (m_sig_trailed r) (s1 i) in
  let p := if trailing_losses_on then randomizePhotometry (m_psf_true r) (m_sig_psf r) (s2 i) else t in
  let rd := randomizeAstrometry (m_ra r) (m_dec r) (m_sig_ast r) (g i) in
  {| m_ra := fst rd; m_dec := snd rd; m_trailed := Some t; m_psf := Some p;
     m_ra_true := Some (m_ra r); m_dec_true := Some (m_dec r);
     m_trailed_true := m_trailed_true r; m_psf_true := m_psf_true r;
     m_sig_trailed := m_sig_trailed r; m_sig_psf := m_sig_psf r; m_sig_ast := m_sig_ast r; m_snr := m_snr r |}.
(** modules/PPRandomizeMeasurements.py:77-92 for the rows in order. *)
Fixpoint randomize_rows (i : nat) (l : list meas) : list meas :=
  match l with [] => [] | r :: l' => randomize_row i r :: randomize_rows (S i) l' end.
(** Lines 34-94. *)
Definition randomizeAstrometryAndPhotometry (default_snr_cut : bool) (l : list meas) : list meas :=
  randomize_rows 0 (if default_snr_cut then filter (fun r => if Rlt_dec 2 (m_snr r) then true else false) l else l).
End Table.
(** sorcha.py:303-306: randomisation off. *)
Definition no_randomization (l : list meas) : list meas :=
  map (fun r => {| m_ra := m_ra r; m_dec := m_dec r; m_trailed := Some (m_trailed_true r); m_psf := Some (m_psf_true r);
     m_ra_true := Some (m_ra r); m_dec_true := Some (m_dec r);
     m_trailed_true := m_trailed_true r; m_psf_true := m_psf_true r;
     m_sig_trailed := m_sig_trailed r; m_sig_psf := m_sig_psf r; m_sig_ast := m_sig_ast r; m_snr := m_snr r |}) l.
