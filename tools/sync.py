"""Regenerate the file list of rocq/_CoqProject (first line = flags, kept as is)."""
import os
d = os.path.join(os.path.dirname(os.path.abspath(__file__)), "..", "rocq")
p = os.path.join(d, "_CoqProject")
flags = [l for l in open(p).read().splitlines() if l.startswith("-")]
fs = sorted(f for f in os.listdir(os.path.join(d, "theories")) if f.endswith(".v"))
open(p, "w").write("\n".join(flags + ["theories/" + f for f in fs]) + "\n")
