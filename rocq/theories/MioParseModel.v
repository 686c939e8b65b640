(** Model of magnetic_model/parser_mio.py and of the loading of the MIO models from the files. *)

From Coq Require Import Bool List Ascii ZArith Reals.
From Verif Require Import Ord TextModel ShcModel CoefModel LegendreModel ShEvalModel TimeModel FourierModel MioModel MioLoadModel.
Import ListNotations.

(** The modulo operator of the Python floats for a positive divisor, idealised *)
Definition py_mod (x y : R) : R := (x - y * IZR (floor (x / y)))%R.

(** parser_mio.py:78-91 *)
Record mio_header := {
  mh_nmax : Z; mh_mmax : Z; mh_pmin : Z; mh_pmax : Z; mh_smin : Z; mh_smax : Z;
  mh_theta_ngp : R; mh_phi_ngp : R; mh_lat_ngp : R; mh_lon_ngp : R; mh_height : R; mh_wolf_ratio : R }.
(** parser_mio.py:35-45, the dictionary *)
Record mio_parsed := {
  mp_header : mio_header; mp_nm : list (list Z); mp_qs : list coefs; mp_gh : list coefs;
  mp_degree_min : Z; mp_degree_max : Z }.

(** ndarray.reshape of an array of [total] elements to the shape (len, a, b, 2): a negative dimension
    is calculated from the other ones.  The two dimensions of the result. *)
Definition reshape_dims (len a b total : Z) : option (Z * Z) :=
  if (a <? 0)%Z then
    if (b <? 0)%Z then None
    else
      let known := (len * b * 2)%Z in
      if (known =? 0)%Z || negb (total mod known =? 0)%Z then None else Some (total / known, b)%Z
  else if (b <? 0)%Z then
    let known := (len * a * 2)%Z in
    if (known =? 0)%Z || negb (total mod known =? 0)%Z then None else Some (a, total / known)%Z
  else if (total =? len * a * b * 2)%Z then Some (a, b) else None.

(** The item k of the reshaped array: the pairs stored from the element k * size on *)
Definition reshaped_item (flat : list R) (size k : nat) : coefs :=
  fun j => (nth (k * size + 2 * j) flat 0%R, nth (k * size + 2 * j + 1) flat 0%R).

(** (nm_idx[:size] != nm_idx[size:]).any().  If there is one item more in the second part NumPy
    broadcasts the first part of none or one item and refuses a longer one (the versions before 1.25
    raise another exception). *)
Definition row_neqb (a b : list Z) : bool := if list_eq_dec Z.eq_dec a b then false else true.
Definition nm_mismatch (first second : list (list Z)) : parsed bool :=
  if Nat.eqb (length first) (length second)
  then Parsed (existsb (fun p => row_neqb (fst p) (snd p)) (combine first second))
  else
    match first with
    | [] => Parsed false
    | [a] => Parsed (existsb (row_neqb a) second)
    | _ => Failed E_Value
    end.

Section Mio.
(** the built-in int and float; [None] is a ValueError *)
Variables (to_int : text -> option Z) (to_float : text -> option R).

(** parser_mio.py:73-91 *)
Definition parse_mio_header (line : text) : parsed mio_header :=
  let fields := split line in
  pbind (pbind (field fields 6) (number to_float)) (fun colat_ngp =>
  pbind (pbind (field fields 7) (number to_float)) (fun lat_ngp =>
  pbind (pbind (field fields 0) (number to_int)) (fun nmax =>
  pbind (pbind (field fields 1) (number to_int)) (fun mmax =>
  pbind (pbind (field fields 2) (number to_int)) (fun pmin =>
  pbind (pbind (field fields 3) (number to_int)) (fun pmax =>
  pbind (pbind (field fields 4) (number to_int)) (fun smin =>
  pbind (pbind (field fields 5) (number to_int)) (fun smax =>
  pbind (pbind (field fields 8) (number to_float)) (fun height =>
  pbind (pbind (field fields 9) (number to_float)) (fun wolf_ratio =>
  Parsed {| mh_nmax := nmax; mh_mmax := mmax; mh_pmin := pmin; mh_pmax := pmax; mh_smin := smin; mh_smax := smax;
            mh_theta_ngp := colat_ngp; mh_phi_ngp := lat_ngp; mh_lat_ngp := (90 - colat_ngp)%R;
            mh_lon_ngp := (180 - py_mod (180 - lat_ngp) 360)%R;
            mh_height := height; mh_wolf_ratio := wolf_ratio |})))))))))).

(** parser_mio.py:52-55, the loop over the lines *)
Definition parse_mio_row (line : text) : parsed (list Z * list R) :=
  let fields := split line in
  pbind (pmap (number to_int) (firstn 2 fields)) (fun nm =>
  pbind (pmap (number to_float) (skipn 2 fields)) (fun coeff =>
  Parsed (nm, coeff))).

(** parser_mio.py:48-70 *)
Definition parse_mio_coefficients (lines : list text) (data : mio_header)
  : parsed (list (list Z) * list coefs * list coefs) :=
  pbind (pmap parse_mio_row lines) (fun rows =>
  pbind (as_array (map fst rows)) (fun nm_idx =>
  pbind (as_array (map snd rows)) (fun coeff =>
  let flat := concat coeff in
  match reshape_dims (Z.of_nat (length coeff)) (mh_smax data - mh_smin data + 1) (mh_pmax data - mh_pmin data + 1)
          (Z.of_nat (length flat)) with
  | None => Failed E_Value
  | Some (a, b) =>
      let item := reshaped_item flat (Z.to_nat (a * b * 2)) in
      let size := Nat.div2 (length nm_idx) in
      pbind (nm_mismatch (firstn size nm_idx) (skipn size nm_idx)) (fun mismatch =>
      if mismatch then Failed E_Value
      else Parsed (firstn size nm_idx, map item (seq 0 size), map item (seq size (length coeff - size))))
  end))).

(** data["nm"][:, 0] (43-44) *)
Definition first_column (nm : list (list Z)) : parsed (list Z) :=
  pmap (fun row => match row with n :: _ => Parsed n | [] => Failed E_Index end) nm.

(** parser_mio.py:35-45, for the lines of a file.  The array of no lines has one dimension only. *)
Definition parse_mio_file (file : list text) : parsed mio_parsed :=
  match strip_shc_comments file with
  | [] => Failed E_StopIteration
  | line :: lines =>
      pbind (parse_mio_header line) (fun header =>
      pbind (parse_mio_coefficients lines header) (fun c =>
      let '(nm, qs, gh) := c in
      match lines with
      | [] => Failed E_Index
      | _ :: _ =>
          pbind (first_column nm) (fun degrees =>
          match degrees with
          | [] => Failed E_Value
          | n :: ns =>
              Parsed {| mp_header := header; mp_nm := nm; mp_qs := qs; mp_gh := gh;
                        mp_degree_min := fold_left Z.min ns n; mp_degree_max := fold_left Z.max ns n |}
          end)
      end))
  end.
End Mio.

(** The parsed items as the data of the loader.  Rows of less than two integers are refused. *)
Fixpoint nm_pairs (nm : list (list Z)) : option (list (Z * Z)) :=
  match nm with
  | [] => Some []
  | [n; m] :: nm' => match nm_pairs nm' with Some l => Some ((n, m) :: l) | None => None end
  | _ :: _ => None
  end.
Definition mio_data_of (p : mio_parsed) : option mio_data :=
  match nm_pairs (mp_nm p) with
  | None => None
  | Some nm =>
      let h := mp_header p in
      Some {| d_lat_ngp := mh_lat_ngp h; d_lon_ngp := mh_lon_ngp h; d_height := mh_height h;
              d_wolf_ratio := mh_wolf_ratio h; d_degree_max := mp_degree_max p; d_nm := nm;
              d_qs := mp_qs p; d_gh := mp_gh p;
              d_pmin := mh_pmin h; d_pmax := mh_pmax h; d_smin := mh_smin h; d_smax := mh_smax h |}
  end.

Section LoadFile.
Context {T : Type} {OT : TOrd T}.
Variables (to_int : text -> option Z) (to_float : text -> option R).
Variables (year_fraction : T -> R) (subsol : T -> R * R) (validity : T * T).

(** loader_mio.py:45-49 and 86-97 *)
Definition load_internal_file (file : list text) : parsed (@mio T) :=
  pbind (parse_mio_file to_int to_float file) (fun p =>
  match mio_data_of p with
  | None => Failed E_Index
  | Some data =>
      match load_internal year_fraction subsol validity data with
      | Ok m => Parsed m
      | Err IndexError => Failed E_Index
      | Err _ => Failed E_Value
      end
  end).
(** loader_mio.py:52-76 and 100-126: the models below and above the ionosphere and the height *)
Definition load_external_file (file : list text) : parsed (@mio T * @mio T * R) :=
  pbind (parse_mio_file to_int to_float file) (fun p =>
  match mio_data_of p with
  | None => Failed E_Index
  | Some data =>
      match load_external year_fraction subsol validity data with
      | Ok m => Parsed (m, d_height data)
      | Err IndexError => Failed E_Index
      | Err _ => Failed E_Value
      end
  end).
End LoadFile.
