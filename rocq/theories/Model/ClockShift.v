(** Measuring clock shifts: CorrBulk.find_clock_shift (correlate/stream.py:400-437) and corr_mat_shift
    (monitor/post_corr_process.py:903-1028) up to the comparison with the reference. *)
From Coq Require Import QArith Qround.
From Verif Require Import Lib.Base Model.CorrStream Model.LagMatrix.
Local Open Scope nat_scope.

Inductive side := Both | Right | Single | OtherSide.
(** UTCDateTime(1900, 1, 1), the start time given to references *)
Definition ref_time : Z := (-2208988800)%Z.
Definition with_starts (h : hdr) (l : list Z) : hdr := mkH (h_lag h) (h_sr h) (h_npts h) l (h_end h).

(** The data are copied, the header is the one of the object.  Result: what is compared, i.e., data, references (None: the
    reference is extracted from the data) and the header that is returned; and the header of the object afterwards. *)
Definition corr_mat_shift (sd : side) (data : matrix) (h : hdr) (refs : option matrix) : result (matrix * option matrix * hdr) * hdr :=
  let dta := (- h_lag h)%Q in
  let dte := end_lag h in
  let '(data1, h1) := match refs with
                      | None => (data, h)
                      | Some r => (data ++ r, with_starts h (h_start h ++ repeat ref_time (length r)))
                      end in
  let '(d, h2) := match sd with
                  | Single | Right => trim data1 h1 0 dte
                  | _ => let dt := qmin dta dte in trim data1 h1 (- dt) dt
                  end in
  let '(d', r', h3) := match refs with
                       | None => (d, None, h2)
                       | Some r => let k := length d - length r in
                                   (firstn k d, Some (skipn k d), with_starts h2 (firstn (length (h_start h2) - length r) (h_start h2)))
                       end in
  match sd with OtherSide => (Raise ValueError, h3) | _ => (Ok (d', r', h3), h3) end.
