"""Write TestMax.v: the repository's own tests of from_max (/repo/test/test_peaks.py:412-472, test_peakssuite.py:636-674) as Coq examples.

usage: python3 tools/testmax.py DIR; cd DIR; coqc -Q /verif/rocq/theories Verif TestMax.v

Not part of the build: the matching of the expressions takes minutes (see DESIGN.md, section 4).  The proofs are checked by the kernel.
"""
import csv, sys
from decimal import Decimal
D="/repo/test/data/rtbf/"
def q(s): return '"'+s.replace('"','""')+'"'
def text(name,f):
    s=open(D+f).read()

    ls=s.split('\n')
    return "Definition %s : text := lines [\n%s].\n"%(name,";\n".join("  "+q(l) for l in ls))
def dec(x):
    if x=='inf': return 'PInf'
    if x=='-inf': return 'NInf'
    if x in ('nan',''): return 'NaN'
    d=Decimal(x); sign,digits,e=d.as_tuple()
    n=int(''.join(map(str,digits)))*(-1 if sign else 1)
    if e>=0: return "d (%d) 1"%(n*10**e)
    return "d (%d) %d"%(n,10**(-e))
ATTR=["frequency","slowness","azimuth","ellipticity","noise","power"]
def table(name,f):
    rows=list(csv.DictReader(open(D+f)))
    out=[]
    for a in ATTR: out.append('  (%s, [%s])'%(q(a),"; ".join(dec(r[a]) for r in rows)))
    return "Definition %s : list (string * list flt) := [\n%s].\n"%(name,";\n".join(out))
def arr(name,rows):
    out=[]
    return "Definition %s : list flt := [%s].\n"%(name,"; ".join(dec(x) for r in rows for x in r))
o=[]
o.append(text("file_1_1","rtbf_nblockset=1_nmaxima=1.max"))
o.append(text("file_1_5","rtbf_nblockset=1_nmaxima=5_trim.max"))
o.append(text("file_3_3","rtbf_nblockset=3_nmaxima=3.max"))
o.append(table("csv_1_1_r","rtbf_nblockset=1_nmaxima=1_r_parsed.csv"))
o.append(table("csv_1_1_l","rtbf_nblockset=1_nmaxima=1_l_parsed.csv"))
for w in "rl":
    for b in range(3): o.append(table("csv_3_3_%s_%d"%(w,b),"rtbf_nblockset=3_nmaxima=3_%s_bs%d_parsed.csv"%(w,b)))
n="nan"
o.append(arr("frequency_r",[["26.78452072","23.91368501","21.35055305"]]*2+[["26.78452072","23.91368501",n]]*3))
o.append(arr("slowness_r",[l.split() for l in """0.000440641 0.001356121 0.001527776
0.001276366 0.001434077 0.002798866
0.001855475 0.00150539 nan
0.001911923 0.001839504 nan
0.002008938 0.002440085 nan""".split("\n")]))
o.append(arr("frequency_l",[["26.78452072","23.91368501","21.35055305"]]*4+[[n,"23.91368501","21.35055305"]]))
o.append(arr("slowness_l",[l.split() for l in """0.000291155 0.000410159 0.001344777
0.000432074 0.002521279 0.001778382
0.001733716 0.00257382 0.002784536
0.001773228 0.002602644 0.003074123
nan 0.002692776 0.003118143""".split("\n")]))
head='''(* The repository's own unit tests of .max files (/repo/test/test_peaks.py:413-476, test_peakssuite.py:636-674), computed with
   the model: the texts are those of /repo/test/data/rtbf/*.max and the tables those of the *_parsed.csv files beside them, or
   the literals of the tests.  See TestSeries.v. *)
From Coq Require Import String.
From Verif Require Import MaxModel TestTools.
Import ListNotations.
Local Open Scope string_scope.
Local Open Scope Z_scope.

Definition newline : ascii := ascii_of_nat 10.
(** The lines of a file, joined. *)
Fixpoint lines (l : list string) : text :=
  match l with [] => [] | [s] => list_ascii_of_string s | s :: t => (list_ascii_of_string s ++ newline :: lines t)%list end.
Definition d (a : Z) (b : positive) : flt := Fin (Q2Qc (a # b)).
Set Printing Width 200.

'''
checks='''
(** assertAlmostEqual with four places (/repo/test/test_peakssuite.py:653); assertArrayAlmostEqual is np.allclose (testtools.py:44-51). *)
Definition four (x y : flt) : bool :=
  match x, y with Fin a, Fin b => Qcleb (Qcabs (a - b)) (Q2Qc (5 # 100000)) | NaN, NaN => true | PInf, PInf => true | NInf, NInf => true | _, _ => false end.
Fixpoint all_near (near : flt -> flt -> bool) (a b : list flt) : bool := match a, b with [], [] => true | x :: a', y :: b' => near x y && all_near near a' b' | _, _ => false end.
(** Entries column by column without those that are missing. *)
Definition by_columns (a : nd flt) : list flt :=
  match shp a with S2 r c => filter (fun x => negb (is_nan x)) (flat_map (fun j => map (fun i => at2 NaN c (dat a) i j) (range r)) (range c)) | S1 _ => [] end.
Definition has_table (near : flt -> flt -> bool) (p : peaks) (t : list (string * list flt)) : bool :=
  forallb (fun kv => returns (fun a => all_near near (snd kv) (by_columns a)) (stored p (fst kv))) t.
Definition has_array (p : peaks) (k : string) (r c : nat) (l : list flt) : bool :=
  returns (fun a => shape_eqb (shp a) (S2 r c) && all_near PeaksModel.isclose l (dat a)) (stored p k).

(** test_peaks.py:414-433. *)
Example from_max_1_1_rayleigh : returns (fun p => has_table PeaksModel.isclose p csv_1_1_r) (peaks_from_max file_1_1 "rayleigh") = true.
Proof. vm_cast_no_check (eq_refl true). Qed.
Example from_max_1_1_love : returns (fun p => has_table PeaksModel.isclose p csv_1_1_l) (peaks_from_max file_1_1 "love") = true.
Proof. vm_cast_no_check (eq_refl true). Qed.
(** 435-476. *)
Example from_max_1_5_rayleigh : returns (fun p => has_array p "frequency" 5 3 frequency_r && has_array p "slowness" 5 3 slowness_r) (peaks_from_max file_1_5 "rayleigh") = true.
Proof. vm_cast_no_check (eq_refl true). Qed.
Example from_max_1_5_love : returns (fun p => has_array p "frequency" 5 3 frequency_l && has_array p "slowness" 5 3 slowness_l) (peaks_from_max file_1_5 "love") = true.
Proof. vm_cast_no_check (eq_refl true). Qed.
Example from_max_bad_wavetype : raises ValueError (peaks_from_max file_1_5 "incorrect") = true.
Proof. vm_cast_no_check (eq_refl true). Qed.
(** test_peakssuite.py:636-674. *)
Definition has_tables (s : suite peaks) (ts : list (list (string * list flt))) : bool :=
  Nat.eqb (List.length (members s)) (List.length ts) && forallb (fun x => x) (map2 (has_table four) (members s) ts).
Example from_max_3_3_rayleigh : returns (fun s => has_tables s [csv_3_3_r_0; csv_3_3_r_1; csv_3_3_r_2]) (suite_from_max [file_3_3] "rayleigh") = true.
Proof. vm_cast_no_check (eq_refl true). Qed.
Example from_max_3_3_love : returns (fun s => has_tables s [csv_3_3_l_0; csv_3_3_l_1; csv_3_3_l_2]) (suite_from_max [file_3_3] "love") = true.
Proof. vm_cast_no_check (eq_refl true). Qed.
'''
open(sys.argv[1]+"/TestMax.v","w").write(head.replace("Set Printing Width 200.\n\n","")+"\n".join(o)+checks)
