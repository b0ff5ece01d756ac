(** The calendar, the written form of a time, and zones, said without the package time. *)
From stdpp Require Import list.
From Coq Require Import ZArith.
From Verif Require Import Time_Model.
Local Open Scope Z_scope.

(** The Gregorian calendar: the length of a month, and the day after a day. *)
Definition leap (y : Z) : Prop := (4 | y) /\ (~ (100 | y) \/ (400 | y)).
Definition month_days (y m n : Z) : Prop :=
  (m = 1 \/ m = 3 \/ m = 5 \/ m = 7 \/ m = 8 \/ m = 10 \/ m = 12) /\ n = 31 \/
  (m = 4 \/ m = 6 \/ m = 9 \/ m = 11) /\ n = 30 \/
  m = 2 /\ leap y /\ n = 29 \/ m = 2 /\ ~ leap y /\ n = 28.
Inductive next_day : Z * Z * Z -> Z * Z * Z -> Prop :=
| next_in_month y m d n : month_days y m n -> 1 <= d < n -> next_day (y, m, d) (y, m, d + 1)
| next_month y m n : month_days y m n -> m < 12 -> next_day (y, m, n) (y, m + 1, 1)
| next_year y : next_day (y, 12, 31) (y + 1, 1, 1).
(** [days_apart a b n]: b is [n] days after a. *)
Inductive days_apart (a : Z * Z * Z) : Z * Z * Z -> Z -> Prop :=
| apart_0 : days_apart a a 0
| apart_S b c n : days_apart a b n -> next_day b c -> days_apart a c (n + 1).
Definition valid_date (x : Z * Z * Z) : Prop := let '(y, m, d) := x in exists n, month_days y m n /\ 1 <= d <= n.
Definition valid_time (f : fields) : Prop :=
  0 <= fyear f <= 9999 /\ valid_date (fyear f, fmonth f, fday f) /\ 0 <= fhour f < 24 /\ 0 <= fmin f < 60 /\ 0 <= fsec f < 60.
(** The seconds of the day. *)
Definition clock (f : fields) : Z := fhour f * 3600 + fmin f * 60 + fsec f.

(** Two and four decimal digits of a number, in ASCII. *)
Definition dd (n : Z) : list Z := [48 + n / 10; 48 + n mod 10].
Definition dddd (n : Z) : list Z := dd (n / 100) ++ dd (n mod 100).
(** YYYY-MM-DD HH:MM:SS. *)
Definition canonical (f : fields) : list Z :=
  dddd (fyear f) ++ [45] ++ dd (fmonth f) ++ [45] ++ dd (fday f) ++ [32] ++ dd (fhour f) ++ [58] ++ dd (fmin f) ++ [58] ++ dd (fsec f).
(** What the code accepts instead: any number of blanks, an hour of one digit, a fraction. *)
Definition hour_text (h : Z) (t : list Z) : Prop := t = dd h \/ (h < 10 /\ t = [48 + h]).
Definition is_digits (ds : list Z) : Prop := Forall (fun c => 48 <= c <= 57) ds.
(** The value of a string of digits. *)
Definition digits_value (ds : list Z) : Z := fold_left (fun v c => v * 10 + (c - 48)) ds 0.
(** A fraction and its nanoseconds: the digits after the ninth do not count, missing ones are zeros. *)
Definition fraction_text (ns : Z) (t : list Z) : Prop :=
  (t = [] /\ ns = 0) \/
  exists p ds, (p = 46 \/ p = 44) /\ ds <> [] /\ is_digits ds /\ t = p :: ds /\ ns = digits_value (take 9 (ds ++ replicate 9 48)).
Definition accepted (f : fields) (s : list Z) : Prop :=
  exists k ht ft, hour_text (fhour f) ht /\ fraction_text (fnano f) ft /\
  s = dddd (fyear f) ++ [45] ++ dd (fmonth f) ++ [45] ++ dd (fday f) ++ replicate (S k) 32 ++ ht ++ [58] ++ dd (fmin f) ++ [58] ++ dd (fsec f) ++ ft.

(** The offset in force at an instant: that of the last transition not after it. *)
Inductive offset_at (l : location) (t : Z) : Z -> Prop :=
| offset_first : (forall w o, (w, o) ∈ ltx l -> t < w) -> offset_at l t (lfirst l)
| offset_tx w o : (w, o) ∈ ltx l -> w <= t -> (forall w' o', (w', o') ∈ ltx l -> w' <= t -> w' <= w) -> offset_at l t o.
(** Instant [t] is shown by clocks of the place as [local] (seconds since 1970 on the local calendar and clock). *)
Definition shows (l : location) (t local : Z) : Prop := exists o, offset_at l t o /\ t + o = local.

(** Alphabetical order of strings. *)
Inductive str_lt : list Z -> list Z -> Prop :=
| lt_nil a r : str_lt [] (a :: r)
| lt_head a b r r' : a < b -> str_lt (a :: r) (b :: r')
| lt_tail a r r' : str_lt r r' -> str_lt (a :: r) (a :: r').
(** The seconds from 1970-01-01 00:00:00 to a date and time on the same calendar, leap seconds apart. *)
Definition local_seconds (f : fields) (L : Z) : Prop :=
  let x := (fyear f, fmonth f, fday f) in
  exists n, (days_apart (1970, 1, 1) x n /\ L = n * 86400 + clock f) \/ (days_apart x (1970, 1, 1) n /\ L = - n * 86400 + clock f).
