(** Model of util/encode.go:116-120 [StrToTimeFormat]: time.LoadLocation("Asia/Shanghai") and
    time.ParseInLocation("2006-01-02 15:04:05", s, l).

    The package time is not part of /repo; the functions below follow its source (Go 1.23, the version of /repo/go.mod:3,
    time/format.go and time/time.go), specialised to the layout: years have four digits, so nothing is negative.
    Bytes of a string are [Z].  Not modelled: which error is returned. *)
From stdpp Require Import list.
From Coq Require Import ZArith Bool.
From Verif Require Import GoInt.
Local Open Scope Z_scope.

(** isDigit and the value of a digit (time/format.go [isDigit], [getnum]; called by util/encode.go:118). *)
Definition digit (c : Z) : bool := (48 <=? c) && (c <=? 57).
(** A number of one or two digits; two if [fixed] (time/format.go [getnum]; util/encode.go:118). *)
Definition getnum (s : list Z) (fixed : bool) : option (Z * list Z) :=
  match s with
  | [] => None
  | c0 :: r =>
      if digit c0 then
        match r with
        | c1 :: r' => if digit c1 then Some ((c0 - 48) * 10 + (c1 - 48), r') else if fixed then None else Some (c0 - 48, r)
        | [] => if fixed then None else Some (c0 - 48, r)
        end
      else None
  end.
(** The text between the numbers; a blank in the layout stands for any number of blanks, at least one unless the text ends
    (time/format.go [skip], [cutspace]; util/encode.go:118). *)
Fixpoint cutspace (s : list Z) : list Z := match s with 32 :: r => cutspace r | _ => s end.
(** One character of the layout between numbers (time/format.go [skip]; util/encode.go:118). *)
Definition skip (s : list Z) (p : Z) : option (list Z) :=
  if p =? 32 then match s with c :: _ => if c =? 32 then Some (cutspace s) else None | [] => Some [] end
  else match s with c :: r => if c =? p then Some r else None | [] => None end.
(** The digits of the year: exactly four (time/format.go [parse], case stdLongYear, [atoi]; util/encode.go:118). *)
Definition getyear (s : list Z) : option (Z * list Z) :=
  match s with
  | a :: b :: c :: d :: r =>
      if digit a && digit b && digit c && digit d
      then Some ((a - 48) * 1000 + (b - 48) * 100 + (c - 48) * 10 + (d - 48), r) else None
  | _ => None
  end.
(** The leading digits and what follows (time/format.go [parse], the loop of case stdZeroSecond; util/encode.go:118). *)
Fixpoint span_digits (s : list Z) : list Z * list Z :=
  match s with
  | c :: r => if digit c then let '(a, b) := span_digits r in (c :: a, b) else ([], s)
  | [] => ([], [])
  end.
(** Nanoseconds of the digits behind the point: nine count (time/format.go [parseNanoseconds], [atoi]; util/encode.go:118). *)
Definition nanoseconds (ds : list Z) : Z :=
  let ds := take 9 ds in fold_left (fun v c => v * 10 + (c - 48)) ds 0 * 10 ^ (9 - Z.of_nat (length ds)).
(** A fraction of a second that the layout does not ask for is taken if there is one (time/format.go [parse], case stdZeroSecond;
    util/encode.go:118). *)
Definition getfrac (s : list Z) : Z * list Z :=
  match s with
  | p :: c :: r =>
      if ((p =? 46) || (p =? 44)) && digit c then let '(ds, rest) := span_digits (c :: r) in (nanoseconds ds, rest) else (0, s)
  | _ => (0, s)
  end.

(** time/time.go [isLeap], [daysIn], [daysBefore] (called by util/encode.go:118). *)
Definition isLeap (y : Z) : bool := (y mod 4 =? 0) && (negb (y mod 100 =? 0) || (y mod 400 =? 0)).
(** Days of the months before month [m], in a year that is not leap (time/time.go [daysBefore]; util/encode.go:118). *)
Definition daysBefore (m : Z) : Z := nth (Z.to_nat m) [0; 31; 59; 90; 120; 151; 181; 212; 243; 273; 304; 334; 365] 0.
(** time/time.go [daysIn] (util/encode.go:118). *)
Definition daysIn (m y : Z) : Z := if (m =? 2) && isLeap y then 29 else daysBefore m - daysBefore (m - 1).

(** The numbers in the string (time/format.go [parse]; util/encode.go:118). *)
Record fields := Fields { fyear : Z; fmonth : Z; fday : Z; fhour : Z; fmin : Z; fsec : Z; fnano : Z }.
(** [None]: an error (time/format.go [parse]; util/encode.go:118). *)
Definition bind {A B} (o : option A) (f : A -> option B) : option B := match o with Some a => f a | None => None end.
(** time.parse for the layout "2006-01-02 15:04:05" (time/format.go [parse]; util/encode.go:118). *)
Definition parse (s : list Z) : option fields :=
  bind (getyear s) (fun '(y, s) =>
  bind (skip s 45) (fun s => bind (getnum s true) (fun '(mo, s) =>
  if (mo <=? 0) || (12 <? mo) then None else
  bind (skip s 45) (fun s => bind (getnum s true) (fun '(d, s) =>
  bind (skip s 32) (fun s => bind (getnum s false) (fun '(h, s) =>
  if 24 <=? h then None else
  bind (skip s 58) (fun s => bind (getnum s true) (fun '(mi, s) =>
  if 60 <=? mi then None else
  bind (skip s 58) (fun s => bind (getnum s true) (fun '(sec, s) =>
  if 60 <=? sec then None else
  let '(ns, s) := getfrac s in
  match s with
  | [] => if (d <? 1) || (daysIn mo y <? d) then None else Some (Fields y mo d h mi sec ns)
  | _ => None
  end))))))))))).

(** A time.Location: the offset before the first transition, and the transitions: since when (Unix seconds) which offset holds
    (time/zoneinfo.go [Location]; util/encode.go:117). *)
Record location := Loc { lfirst : Z; ltx : list (Z * Z) }.
(** The earliest and the latest time (time/zoneinfo.go [alpha], [omega]; util/encode.go:118). *)
Definition alpha : Z := - 2^63.
Definition omega : Z := 2^63 - 1.
(** Offset, start and end of the zone in force at [sec]; the source searches by halving (time/zoneinfo.go [lookup]; util/encode.go:118). *)
Fixpoint lookup_from (start off : Z) (tx : list (Z * Z)) (sec : Z) : Z * Z * Z :=
  match tx with
  | [] => (off, start, omega)
  | (w, o) :: r => if sec <? w then (off, start, w) else lookup_from w o r sec
  end.
(** time/zoneinfo.go [lookup] (util/encode.go:118). *)
Definition lookup_zone (l : location) (sec : Z) : Z * Z * Z := lookup_from alpha (lfirst l) (ltx l) sec.

(** Asia/Shanghai of the tz database (2024; the file /usr/share/zoneinfo/Asia/Shanghai): local mean time up to 1901, summer times of
    one hour up to 1991 (util/encode.go:117). *)
Definition shanghai : location := Loc 29143 [
  (-2177481943, 28800); (-1600675200, 32400); (-1585904400, 28800); (-933667200, 32400); (-922093200, 28800);
  (-908870400, 32400); (-888829200, 28800); (-881049600, 32400); (-767869200, 28800); (-745833600, 32400);
  (-733827600, 28800); (-716889600, 32400); (-699613200, 28800); (-683884800, 32400); (-670669200, 28800);
  (-652348800, 32400); (-650019600, 28800); (515527200, 32400); (527014800, 28800); (545162400, 32400);
  (558464400, 28800); (577216800, 32400); (589914000, 28800); (608666400, 32400); (621968400, 28800);
  (640116000, 32400); (653418000, 28800); (671565600, 32400); (684867600, 28800)].

(** time/time.go: absoluteZeroYear (util/encode.go:118). *)
Definition absoluteZeroYear : Z := -292277022399.
(** Days since the start of absoluteZeroYear (time/time.go [daysSinceEpoch]; util/encode.go:118). *)
Definition daysSinceEpoch (year : Z) : Z :=
  let y := u64 (year - absoluteZeroYear) in
  let n := y / 400 in let y := y - 400 * n in let d := 146097 * n in
  let n := y / 100 in let y := y - 100 * n in let d := d + 36524 * n in
  let n := y / 4 in let y := y - 4 * n in let d := d + 1461 * n in
  u64 (d + 365 * y).
(** absoluteToInternal + internalToUnix, in seconds (time/time.go; util/encode.go:118). *)
Definition absoluteToUnix : Z := (absoluteZeroYear - 1) * 3652425 * 86400 / 10000 - (1969 * 365 + 1969 / 4 - 1969 / 100 + 1969 / 400) * 86400.
(** The seconds since 1970 of a date and time, zone apart (time/time.go [Date], first part; util/encode.go:118). *)
Definition dateSeconds (f : fields) : Z :=
  let d := u64 (daysSinceEpoch (fyear f) + daysBefore (fmonth f - 1)) in
  let d := if isLeap (fyear f) && (3 <=? fmonth f) then u64 (d + 1) else d in
  let d := u64 (d + (fday f - 1)) in
  let abs := u64 (u64 (d * 86400) + (fhour f * 3600 + fmin f * 60 + fsec f)) in
  i64 (i64 abs + absoluteToUnix).
(** time/time.go [Date] in the location [l]: Unix seconds (util/encode.go:118). *)
Definition dateUnix (f : fields) (l : location) : Z :=
  let unix := dateSeconds f in
  let '(off, start, stop) := lookup_zone l unix in
  if off =? 0 then unix
  else
    let utc := i64 (unix - off) in
    let off := if (utc <? start) || (stop <=? utc) then let '(o, _, _) := lookup_zone l utc in o else off in
    i64 (unix - off).

(** What the caller sees: an error, a panic, or a time (Unix seconds and nanoseconds; util/encode.go:116). *)
Inductive tres := TErr | TPanic | TOk (unix nano : Z).
(** util/encode.go:116-120 [StrToTimeFormat].  [tz]: what LoadLocation found; [None]: no time zone database, then l is nil and
    time.Date, reached by every string without an error, panics. *)
Definition StrToTimeFormat (tz : option location) (s : list Z) : tres :=
  match parse s with
  | None => TErr
  | Some f => match tz with None => TPanic | Some l => TOk (dateUnix f l) (fnano f) end
  end.
