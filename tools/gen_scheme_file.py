"""Prints rocq/theories/SchemeFile.v: the bytes of the IANA table shipped in /repo."""
import gzip
import sys

data = gzip.open("/repo/src/urlstd/data/uri-schemes-1.csv.gz", "rb").read()
lines = data.split(b"\r\n")
assert lines[-1] == b"" and not any(b"\r" in x or b"\n" in x for x in lines)
out = sys.stdout.buffer
out.write(b'''(** The bytes of /repo/src/urlstd/data/uri-schemes-1.csv.gz after decompression: the lines below,
    each ended by CR LF. Generated by tools/gen_scheme_file.py. *)
From Coq Require Import Ascii String.
From Coq Require Import NArith List.
From Verif Require Import PyStr.
Import ListNotations.
Open Scope N_scope.

Definition SHIPPED : list N := flat_map (fun line => s2l line ++ [13; 10]) [
''')
out.write(b";\n".join(b'  "%s"' % x.replace(b'"', b'""') for x in lines[:-1]))
out.write(b"\n]%string.\n")
