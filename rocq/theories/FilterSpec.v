(** What the filter example is to print (C64). *)
From Coq Require Import Ascii String.
From Verif Require Import Machine Cli.
Local Open Scope Z_scope.
Local Open Scope list_scope.

(** Each followed by a line end. *)
Definition lines (l : list string) : list Z := flat_map (fun s => text s ++ [10]) l.
(** The first 100 IDs have ten times their number as value, the next 100 five times, the
    last 100 twice.  The averages have two decimals, as Go's [%.2f] prints them. *)
Definition sample_output (filename : list Z) : list Z :=
  text "Creating column file at: " ++ filename ++ [10]
  ++ lines ["";
  "=== Example 1: No filters ==="; "No filters:"; "  Count: 300"; "  Min: 10"; "  Max: 1000"; "  Sum: 175850"; "  Avg: 586.17"; "";
  "=== Example 2: Only allow filter ==="; "Allow specific IDs:"; "  Count: 9"; "  Min: 100"; "  Max: 650"; "  Sum: 3720"; "  Avg: 413.33"; "";
  "=== Example 3: Only deny filter ==="; "Deny first block:"; "  Count: 200"; "  Min: 402"; "  Max: 1000"; "  Sum: 125350"; "  Avg: 626.75"; "";
  "=== Example 4: Both allow and deny filters ==="; "Allow IDs 1-200, deny even IDs:"; "  Count: 100"; "  Min: 10"; "  Max: 995"; "  Sum: 62500"; "  Avg: 625.00"; "";
  "=== Example 5: Complex filtering scenario ==="; "Allow specific ranges, deny IDs divisible by 5:"; "  Count: 60"; "  Min: 502"; "  Max: 870"; "  Sum: 39250"; "  Avg: 654.17"]%string.

