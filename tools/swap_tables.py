#!/usr/bin/env python3
"""Transcribes /repo/src/Omega_h_swap3d_tables.hpp into rocq/theories/M_SwapTables.v."""
import re
src = open("/repo/src/Omega_h_swap3d_tables.hpp").read()
src = re.sub(r"//[^\n]*", "", src)
def line(pos): return src.count("\n", 0, pos) + 1
def z(x):
    if isinstance(x, list): return "[" + "; ".join(z(y) for y in x) + "]"
    return str(x)
def py(t): return eval(t.replace("{", "[").replace("}", "]"))
tab = {}
for m in re.finditer(r"static (?:Int|IntPair) const (\w+)\[[^;]*?=\s*(\{[0-9,{}\s]*\});", src):
    tab[m.group(1)] = (py(m.group(2)), line(m.start()), line(m.end()))
out = []
out.append("""(** The edge swap tables: src/Omega_h_swap3d_tables.hpp. Generated from the header by
    tools/swap_tables.py: the numbers are copied, one definition per array. A null pointer is the
    empty list. *)
From Verif Require Import Prelude.
Local Open Scope Z_scope.
""")
ty = {"tri": "list (list Z)", "flat": "list Z"}
def wrap(s, w=100):
    r, l = [], ""
    for t in s.split(" "):
        if len(l) + len(t) + 1 > w: r.append(l); l = "   " + t
        else: l = t if not l else l + " " + t
    r.append(l); return "\n".join(r)
def emit(n, t, cite):
    out.append("(** src/Omega_h_swap3d_tables.hpp:%s *)" % cite)
    out.append(wrap("Definition %s := %s." % (n + (" : " + t if t else ""), z(tab[n][0]))))
c = lambda n: "%d-%d" % tab[n][1:] if tab[n][1] != tab[n][2] else "%d" % tab[n][1]
m = re.search(r"MAX_EDGE_SWAP\s*=?\s*(\d+)", src)
out.append("(** src/Omega_h_swap3d_tables.hpp:%d *)" % line(m.start()))
out.append("Definition MAX_EDGE_SWAP : Z := %s." % m.group(1))
for nm in ("MAX_UNIQUE_TRIS", "MAX_UNIQUE_EDGES"):
    m = re.search(nm + r"\s*=?\s*(\d+)", src)
    out.append("(** src/Omega_h_swap3d_tables.hpp:%d *)" % line(m.start()))
    out.append("Definition %s : Z := %s." % (nm, m.group(1)))
for n in ("swap_mesh_sizes", "swap_mesh_counts", "nedges"): emit(n, "list Z", c(n))
for i in range(3, 8):
    emit("triangles_%d" % i, "list (list Z)", c("triangles_%d" % i))
    emit("meshes_%d" % i, "list Z", c("meshes_%d" % i))
for i in range(4, 8): emit("unique_edges_%d" % i, "list (list Z)", c("unique_edges_%d" % i))
for i in range(4, 8):
    m = re.search(r"edges2unique_%d\[\d+\] = \{([^}]*)\};" % i, src)
    names = [x.strip() for x in m.group(1).split(",")]
    out.append("(** src/Omega_h_swap3d_tables.hpp:%d-%d and %d-%d *)" % (tab[names[0]][1], tab[names[-1]][2], line(m.start()), line(m.end())))
    out.append(wrap("Definition edges2unique_%d : list (list Z) := %s." % (i, z([tab[n][0] for n in names]))))
for n, t in (("swap_triangles", "list (list (list Z))"), ("swap_meshes", "list (list Z)"), ("unique_edges", "list (list (list Z))"), ("edges2unique", "list (list (list Z))")):
    m = re.search(r"\b%s\[MAX_EDGE_SWAP \+ 1\] = \{([^}]*)\};" % n, src)
    out.append("(** src/Omega_h_swap3d_tables.hpp:%d-%d *)" % (line(m.start()), line(m.end())))
    out.append(wrap("Definition %s : %s := [%s]." % (n, t, "; ".join(x.strip().replace("nullptr", "[]") for x in m.group(1).split(",")))))
open("/verif/rocq/theories/M_SwapTables.v", "w").write("\n".join(out) + "\n")
