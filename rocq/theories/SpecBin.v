(** Specification of the two binary files: what is written, and what should be
    read back. *)
From Coq Require Import Ascii String List ZArith.
From Verif Require Import PyVal SpecBytes SpecFortran SpecLine.
Import ListNotations.
Open Scope list_scope.

Definition text (s : string) : bytes := list_ascii_of_string s.
Definition enc_ints (zs : list Z) : bytes := concat (map enc_int zs).
Definition enc_doubles (ds : list bytes) : bytes := concat ds.
Definition enc_complexes (ps : list (bytes * bytes)) : bytes := concat (map (fun p => fst p ++ snd p) ps).
Definition complex_ok (p : bytes * bytes) : Prop := double (fst p) /\ double (snd p).
(** Python values of arrays. *)
Definition int_tuple (zs : list Z) : pyval := VTuple (map VInt zs).
Definition float_tuple (ds : list bytes) : pyval := VTuple (map (fun d => VFloat (FBits d)) ds).
Definition complex_tuple (ps : list (bytes * bytes)) : pyval :=
  VTuple (map (fun p => VComplex (FBits (fst p)) (FBits (snd p))) ps).

(** ** cst_esp: planes at an x index, each a list of columns at a y index. *)
Definition col := (Z * list (bytes * bytes))%type.
Definition plane := (Z * list col)%type.
Definition col_record (x : Z) (c : col) : bytes := enc_int x ++ enc_int (fst c) ++ enc_complexes (snd c).
Definition plane_records (p : plane) : list bytes := map (col_record (fst p)) (snd p).
Definition esp_file (spins : Z) (grid : list Z) (ps : list plane) : bytes :=
  enc_file (enc_int spins :: enc_ints grid :: concat (map plane_records ps)).
Definition plane_ok (p : plane) : Prop :=
  int32 (fst p) /\ snd p <> [] /\
  Forall (fun c => int32 (fst c) /\ Forall complex_ok (snd c) /\ short (col_record (fst p) c)) (snd p).
(** Neighbouring planes are at different x. *)
Fixpoint x_changes (ps : list plane) : Prop :=
  match ps with
  | p :: ((q :: _) as ps') => fst p <> fst q /\ x_changes ps'
  | _ => True
  end.
Definition plane_value (p : plane) : pyval := VList (map (fun c => complex_tuple (snd c)) (snd p)).

(** ** epme_bin *)
Record ion := { ion_index : Z; ion_left : bytes; ion_name : bytes; ion_right : bytes; ion_pos : list bytes }.
Record kpt := { kp_spin : Z; kp_index : Z; kp_bands : Z; kp_min : Z; kp_eig : list bytes; kp_vel : list bytes }.
Record phn := { ph_q : Z; ph_b : Z; ph_b2 : Z; ph_kpts : list Z; ph_freqs : list bytes;
                ph_modes : list (bytes * bytes); ph_elems : list (bytes * bytes) }.
Record epme := { ep_type : bytes; ep_version : Z; ep_header : bytes; ep_spins : Z; ep_fermi : bytes;
                 ep_lattice : list bytes; ep_ions : list ion;
                 ep_n_kpts : Z; ep_bands : Z; ep_kpts : list kpt;
                 ep_n_pairs : Z; ep_bands2 : Z; ep_phonons : list phn }.

Definition ion_species (i : ion) : bytes := ion_left i ++ ion_name i ++ ion_right i.
Definition ion_records (i : ion) : list bytes := [enc_int (ion_index i); ion_species i; enc_doubles (ion_pos i)].
Definition kpt_records (k : kpt) : list bytes :=
  [enc_int (kp_spin k); enc_int (kp_index k); enc_int (kp_bands k); enc_int (kp_min k);
   enc_doubles (kp_eig k); enc_doubles (kp_vel k)].
Definition phn_records (p : phn) : list bytes :=
  [enc_int (ph_q p); enc_int (ph_b p); enc_int (ph_b2 p); enc_ints (ph_kpts p); enc_doubles (ph_freqs p);
   enc_complexes (ph_modes p); enc_complexes (ph_elems p)].
Definition header_records (e : epme) : list bytes :=
  [ep_type e; enc_int (ep_version e); ep_header e; enc_int (ep_spins e); ep_fermi e].
Definition atom_records (e : epme) : list bytes :=
  enc_int (Z.of_nat (length (ep_ions e))) :: enc_doubles (ep_lattice e) :: concat (map ion_records (ep_ions e)).
Definition kpoint_records (e : epme) : list bytes :=
  enc_int (ep_n_kpts e) :: enc_int (ep_bands e) :: concat (map kpt_records (ep_kpts e)).
Definition phonon_records (e : epme) : list bytes :=
  enc_int (ep_n_pairs e) :: enc_int (ep_bands2 e) :: concat (map phn_records (ep_phonons e)).

(** The file, with the three section markers as parameters. *)
Definition epme_file (m1 m2 m3 : bytes) (e : epme) (more : list bytes) : bytes :=
  enc_file (header_records e ++ m1 :: atom_records e ++ m2 :: kpoint_records e ++ m3 :: phonon_records e ++ more).

(** Representable contents. *)
Definition ion_ok (i : ion) : Prop :=
  int32 (ion_index i) /\ blanks (ion_left i) /\ blanks (ion_right i) /\ ion_name i <> [] /\
  Forall (fun c => ~ blank c) (ion_name i) /\ ascii_text (ion_species i) /\ Forall double (ion_pos i) /\
  Forall short (ion_records i).
Definition kpt_ok (k : kpt) : Prop :=
  int32 (kp_spin k) /\ int32 (kp_index k) /\ int32 (kp_bands k) /\ int32 (kp_min k) /\
  Forall double (kp_eig k) /\ Forall double (kp_vel k) /\ Forall short (kpt_records k).
Definition phn_ok (p : phn) : Prop :=
  int32 (ph_q p) /\ int32 (ph_b p) /\ int32 (ph_b2 p) /\ Forall int32 (ph_kpts p) /\ Forall double (ph_freqs p) /\
  Forall complex_ok (ph_modes p) /\ Forall complex_ok (ph_elems p) /\ Forall short (phn_records p).
Definition epme_ok (e : epme) : Prop :=
  ascii_text (ep_type e) /\ short (ep_type e) /\ ascii_text (ep_header e) /\ short (ep_header e) /\
  int32 (ep_version e) /\ int32 (ep_spins e) /\ double (ep_fermi e) /\
  int32 (Z.of_nat (length (ep_ions e))) /\ Forall double (ep_lattice e) /\ short (enc_doubles (ep_lattice e)) /\
  Forall ion_ok (ep_ions e) /\
  int32 (ep_n_kpts e) /\ int32 (ep_bands e) /\ Forall kpt_ok (ep_kpts e) /\
  int32 (ep_n_pairs e) /\ int32 (ep_bands2 e) /\ Forall phn_ok (ep_phonons e).
(** The k-point list has as many entries as the counts say (two per pair and spin). *)
Definition kpts_counted (e : epme) : Prop :=
  Z.of_nat (length (ep_kpts e)) = (ep_spins e * (ep_n_kpts e / 2) * 2)%Z.
(** The coupling section agrees with the k-point section: as many pairs, and a
    band count whose integer square root is the number of bands. *)
Definition pairs_agree (e : epme) : Prop := ep_n_pairs e = (ep_n_kpts e / 2)%Z.
Definition bands_agree (e : epme) : Prop :=
  (0 <= ep_bands e /\ ep_bands e * ep_bands e <= ep_bands2 e < (ep_bands e + 1) * (ep_bands e + 1))%Z.
Definition phonons_counted (e : epme) : Prop := Z.of_nat (length (ep_phonons e)) = ep_n_pairs e.

(** What should be returned. *)
Definition skey (s : string) : key := KStr (text s).
Definition ion_key (i : ion) : key := KTuple [KStr (ion_name i); KInt (ion_index i)].
Definition kpt_key (k : kpt) : key := KTuple [KInt (kp_spin k); KInt (kp_index k)].
Definition kpt_value (k : kpt) : pyval := VDict false
  [(skey "n_bands", VInt (kp_bands k)); (skey "min_band", VInt (kp_min k));
   (skey "eigenvalues", float_tuple (kp_eig k)); (skey "velocities", float_tuple (kp_vel k))].
Definition phn_value (p : phn) : pyval := VDict false
  [(skey "kpts", int_tuple (ph_kpts p)); (skey "frequencies", float_tuple (ph_freqs p));
   (skey "modes", complex_tuple (ph_modes p)); (skey "matrix_elements", complex_tuple (ph_elems p))].
Definition epme_value (e : epme) : list (bytes * pyval) :=
  [(text "version", VInt (ep_version e)); (text "n_spins", VInt (ep_spins e));
   (text "fermi_energy", VFloat (FBits (ep_fermi e)));
   (text "n_ions", VInt (Z.of_nat (length (ep_ions e)))); (text "real_lattice", float_tuple (ep_lattice e));
   (text "ions", VDict false (map (fun i => (ion_key i, float_tuple (ion_pos i))) (ep_ions e)));
   (text "n_kpoint_pairs", VInt (ep_n_kpts e / 2)); (text "n_bands", VInt (ep_bands e));
   (text "kpoints", VDict false (map (fun k => (kpt_key k, kpt_value k)) (ep_kpts e)));
   (text "phonons", VList (map phn_value (ep_phonons e)))].
