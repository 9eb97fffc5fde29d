(** The text of a summary: how distbench_summary.cc formats the numbers of
    Sum_Model.v.  Definitions only. *)
From Coq Require Import Ascii String List NArith ZArith Bool SpecFloat.
From Verif Require Import Base_Model Table_Model Cluster_Model Float_Model Log_Model Sum_Model Report_Model.
Import ListNotations.
Open Scope Z_scope.

(** C++ division of doubles. *)
Definition f64_div : spec_float -> spec_float -> spec_float := SFdiv 53 1024.

(** ** Conversions of absl::StrAppendFormat *)
(** The integer nearest to a/b, for 0 < b; the even one of two. *)
Definition nearest (a b : Z) : Z :=
  let q := a / b in
  match 2 * (a mod b) ?= b with Lt => q | Gt => q + 1 | Eq => if Z.even q then q else q + 1 end.
(** The last [p] decimal digits of a number. *)
Fixpoint low_digits (p : nat) (n : N) (acc : str) : str :=
  match p with O => acc | S q => low_digits q (n / 10) (digit_char (n mod 10) :: acc) end.
(** "%W.Pf" with 0 < P: the exact value is rounded to P decimals.  W is at most
    the shortest output (3 characters), so it pads nothing. *)
Definition fixed (p : nat) (x : spec_float) : str :=
  let show (s : bool) (n : Z) :=
    (if s then [minus] else []) ++ dec_of_Z (n / 10 ^ Z.of_nat p) ++ s_ "." ++ low_digits p (Z.to_N (n mod 10 ^ Z.of_nat p)) [] in
  match x with
  | S754_zero s => show s 0
  | S754_infinity s => (if s then [minus] else []) ++ s_ "inf"
  | S754_nan => s_ "nan"
  | S754_finite s m e =>
      show s (match e with
              | Zneg k => nearest (Z.pos m * 10 ^ Z.of_nat p) (2 ^ Z.pos k)
              | _ => Z.pos m * 2 ^ e * 10 ^ Z.of_nat p
              end)
  end.

(** ** Iteration over std::map: in the order of the keys *)
Section Ordered.
Context {K V : Type}.
Variable lt : K -> K -> bool.
Fixpoint place (k : K) (v : V) (m : list (K * V)) : list (K * V) :=
  match m with
  | [] => [(k, v)]
  | (k', v') :: r => if lt k' k then (k', v') :: place k v r else (k, v) :: m
  end.
Fixpoint in_order (m : list (K * V)) : list (K * V) :=
  match m with [] => [] | (k, v) :: r => place k v (in_order r) end.
End Ordered.
(** operator< of std::pair. *)
Definition pair_ltb (a b : str * str) : bool :=
  if str_ltb (fst a) (fst b) then true else if str_ltb (fst b) (fst a) then false else str_ltb (snd a) (snd b).

(** distbench_summary.cc 31-44 LatencySummary. *)
Definition latency_text (l : lat_summary) : str :=
  s_ "N: " ++ dec_of_Z (Z.of_nat (la_n l)) ++
  match la_values l with
  | None => []
  | Some (mn, md, p90, p99, p999, mx) =>
      s_ " min: " ++ dec_of_Z mn ++ s_ "ns" ++ s_ " median: " ++ dec_of_Z md ++ s_ "ns" ++ s_ " 90%: " ++ dec_of_Z p90 ++ s_ "ns" ++
      s_ " 99%: " ++ dec_of_Z p99 ++ s_ "ns" ++ s_ " 99.9%: " ++ dec_of_Z p999 ++ s_ "ns" ++ s_ " max: " ++ dec_of_Z mx ++ s_ "ns"
  end.
(** 213-214 *)
Definition latency_line (x : str * lat_summary) : str := s_ "  " ++ fst x ++ s_ ": " ++ latency_text (snd x).

(** The literals 1000., 1'000'000'000 and MiB, converted to double. *)
Definition f64_1000 : spec_float := f64_of_Z 1000.
Definition f64_1e9 : spec_float := f64_of_Z 1000000000.
Definition f64_MiB : spec_float := f64_of_Z 1048576.
(** 207 *)
Definition seconds (ns : Z) : spec_float := f64_div (f64_of_Z ns) f64_1e9.
(** 72-74, 126-127, 139-140: (double)bytes / MiB / total_time_seconds. *)
Definition mib_rate (bytes : Z) (t : spec_float) : spec_float := f64_div (f64_div (f64_of_Z bytes) f64_MiB) t.

(** 59-77 AddCommunicationSummaryTo: a line. *)
Definition comm_line (t : spec_float) (x : (str * str) * perf) : str :=
  s_ "  " ++ fst (fst x) ++ s_ " -> " ++ snd (fst x) ++ s_ ": RPCs: " ++ dec_of_Z (pf_rpcs (snd x)) ++
  s_ " (" ++ fixed 2 (f64_div (f64_div (f64_of_Z (pf_rpcs (snd x))) t) f64_1000) ++ s_ " kQPS) " ++
  s_ "Request: " ++ fixed 1 (mib_rate (pf_request (snd x)) t) ++ s_ " MiB/s Response: " ++ fixed 1 (mib_rate (pf_response (snd x)) t) ++ s_ " MiB/s".
(** 122-129: a line of AddInstanceSummaryTo. *)
Definition inst_line (t : spec_float) (x : str * inst_sum) : str :=
  s_ "  " ++ fst x ++ s_ ": Tx: " ++ fixed 1 (mib_rate (is_tx (snd x)) t) ++ s_ " MiB/s, Rx:" ++ fixed 1 (mib_rate (is_rx (snd x)) t) ++ s_ " MiB/s".
(** 131-144: the global summary. *)
Definition global_lines (t : spec_float) (s : summary) (rpcs tx : Z) : list str :=
  [s_ "Global summary:";
   s_ "  Total samples: " ++ dec_of_Z (sm_samples s);
   s_ "  Failed samples: " ++ dec_of_Z (sm_failed s);
   s_ "  Warmup samples: " ++ dec_of_Z (sm_warm s);
   s_ "  Total time: " ++ fixed 3 t ++ s_ "s";
   s_ "  Total Tx: " ++ dec_of_Z (Z.quot tx 1048576) ++ s_ " MiB (" ++ fixed 1 (mib_rate tx t) ++ s_ " MiB/s), " ++
   s_ "Total Nb RPCs: " ++ dec_of_Z rpcs ++ s_ " (" ++ fixed 2 (f64_div (f64_div (f64_of_Z rpcs) f64_1000) t) ++ s_ " kQPS)"].
(** 206-216 and 120-129: the lines that are returned. *)
Definition summary_lines (r : sum_result) : list str :=
  match r with
  | NoSummary => []
  | Summary s =>
      let t := seconds (sm_time s) in
      [s_ "RPC latency summary:"] ++ map latency_line (in_order str_ltb (sm_lat s)) ++
      [s_ "Communication summary:"] ++ map (comm_line t) (in_order pair_ltb (sm_comm s)) ++
      match sm_inst s with
      | None => []
      | Some (m, rpcs, tx) => [s_ "Instance summary:"] ++ map (inst_line t) (in_order str_ltb m) ++ global_lines t s rpcs tx
      end
  end.
(** 148-217 SummarizeTestResult; [names] are those of rpc_descriptions.  None:
    undefined behaviour. *)
Definition summary_text (names : list str) (l : result_log) : option (list str) := option_map summary_lines (summarize names l).
(** distbench_test_sequencer.cc 196-204: the text returned with the result. *)
Definition test_text (content : Z -> engine_log) (res : test_result) : option (list str) :=
  summary_text (map rp_name (cf_rpcs (config_of (tr_test res)))) (result_logs content res).
