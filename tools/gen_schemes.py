"""Prints rocq/theories/Schemes.v from the IANA table shipped in /repo."""
import csv
import gzip

rows = [
    x["URI Scheme"]
    for x in csv.DictReader(
        gzip.open("/repo/src/urlstd/data/uri-schemes-1.csv.gz", "rt").read().split("\n")
    )
]
rows.remove("shttp (OBSOLETE)")
print('''(** REGISTERED_SCHEMES: the "URI Scheme" column of
    /repo/src/urlstd/data/uri-schemes-1.csv.gz without "shttp (OBSOLETE)"
    (parse.py:146-153). Generated by tools/gen_schemes.py. *)
From Coq Require Import Ascii String.
From Coq Require Import List.
From Verif Require Import PyStr.
Import ListNotations.

Definition REGISTERED_SCHEMES : list str := map s2l [''')
print(";\n".join('  "%s"' % x for x in rows))
print("]%string.")
