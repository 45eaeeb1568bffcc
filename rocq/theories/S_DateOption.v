(** Texts that a date option (-b, -e) takes: those that begin with a date or an offset. *)
From Verif Require Import Base S_Decimal S_DateText.

Inductive begins_with_date : bytes -> Prop :=
| bd_md ms ds rest : d12_ok ms -> d12_ok ds -> begins_with_date (md_text ms ds ++ rest)
| bd_year ys rest : digits_n 4 ys -> begins_with_date (dtext ys ++ rest)
| bd_offset neg ns u rest : digits_ok ns -> ns <> [] -> In u (B "dwmy|") -> begins_with_date (offset_text neg ns u ++ rest).

(** Texts that are a date altogether: a date, an offset, or a date followed by an offset (README "Date Entry"). *)
Inductive day_text : bytes -> Prop :=
| dt_md ms ds : d12_ok ms -> d12_ok ds -> day_text (md_text ms ds)
| dt_ymd ys ms ds : digits_n 2 ys \/ digits_n 4 ys -> d12_ok ms -> d12_ok ds -> day_text (ymd_text ys ms ds)
| dt_y ys : digits_n 4 ys -> day_text (dtext ys)
| dt_ym ys ms : digits_n 4 ys -> d12_ok ms -> day_text (dtext ys ++ B "/" ++ dtext ms).
Inductive whole_date : bytes -> Prop :=
| wd_day s : day_text s -> whole_date s
| wd_offset neg ns u : digits_ok ns -> ns <> [] -> In u (B "dwmy|") -> whole_date (offset_text neg ns u)
| wd_both s neg ns u : day_text s -> digits_ok ns -> ns <> [] -> In u (B "dwmy|") -> whole_date (s ++ offset_text neg ns u).
