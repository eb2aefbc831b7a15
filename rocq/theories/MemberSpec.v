(** * MemberSpec: vocabulary for the properties of the Python members and of raw() *)
From Coq Require Import ZArith List Bool String.
From Verif Require Import Num XMath Ubend Peaks Brent Estimator Tail P2 Spot B64 Layout PyBinding.
Import ListNotations.
Open Scope Z_scope.

(** the attributes of a Spot object and their values *)
Definition member_values (s : spot B64) : list (string * pyval) :=
  [("q", DFloat (s_q s)); ("level", DFloat (s_level s)); ("anomaly_threshold", DFloat (s_at s)); ("excess_threshold", DFloat (s_et s));
   ("Nt", DInt (s_Nt s mod 2 ^ 64)); ("n", DInt (s_n s mod 2 ^ 64));
   ("gamma", DFloat (t_gamma (s_tail s))); ("sigma", DFloat (t_sigma (s_tail s)))]%string.
(** the attribute and the entry of as_dict() that stand for the same member *)
Definition same_member : list (string * string) :=
  [("q", "q"); ("level", "level"); ("anomaly_threshold", "anomaly_threshold"); ("excess_threshold", "excess_threshold");
   ("Nt", "Nt"); ("n", "n"); ("gamma", "tail.gamma"); ("sigma", "tail.sigma")]%string.
(** a detector with another content of its window *)
Definition with_cells (s : spot B64) (d : list (option b64)) : spot B64 :=
  let t := s_tail s in let p := t_peaks t in let u := p_cont p in
  MkSpot (N := B64) (s_q s) (s_level s) (s_discard s) (s_low s) (s_updown s) (s_at s) (s_et s) (s_Nt s) (s_n s)
    (MkTail (N := B64) (t_gamma t) (t_sigma t) (MkPeaks (N := B64) (p_e p) (p_e2 p) (p_min p) (p_max p)
      (MkUbend (N := B64) (u_cursor u) (u_capacity u) (u_last u) (u_filled u) d))).
