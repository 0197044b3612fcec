#!/usr/bin/env python3
"""Transcribes the BLAS interface of /repo into rocq/theories/BlasIf_Data.v.
Every declaration and definition of the listed files is parsed; whatever is left over
after the expected head and tail of a file aborts the run."""
import re, sys
R = '/repo/'
TY = {'int': 'Int', 'char': 'Char', 'float': 'F32', 'double': 'F64', 'std::complex<float>': 'C32', 'std::complex<double>': 'C64', 'void': 'Void'}
def norm(s): return re.sub(r'\s+', ' ', s).strip()
def ty(s): return TY[norm(s)]
def param(s):
    s = norm(s); c = s.startswith('const ')
    if c: s = s[6:]
    return '(%s, %s)' % ('true' if c else 'false', ty(s))
def split(s): return [norm(a) for a in s.split(',')]
def lst(l): return '[' + '; '.join(l) + ']'
def q(s): return '"%s"' % s
out = []
def emit(name, typ, cite, rows):
    out.append('(** %s *)\nDefinition %s : list %s := [\n  %s\n].\n' % (cite, name, typ, ';\n  '.join(rows)))
def leftover(t, allowed, f):
    for a in allowed: t = re.sub(a, ' ', t, flags=re.S)
    if t.strip(): sys.exit('%s: unparsed text %r' % (f, t.strip()[:300]))

# FunctionList.yml
f = 'include/BlasBooster/BlasInterface/FunctionList.yml'
sec = {}; cur = None
for l in open(R + f):
    l = l.rstrip()
    if not l.strip(): continue
    if re.match(r'\w+:$', l): cur = sec.setdefault(l[:-1], [])
    elif l.startswith(' - return_value: '): cur.append([l.split(': ', 1)[1], None, []])
    elif l.startswith('   name: '): cur[-1][1] = l.split(': ', 1)[1]
    elif l == '   argument_list:': pass
    elif l.startswith('    - '): cur[-1][2].append(l[6:])
    else: sys.exit('yml: %r' % l)
for k in ('functions_blas', 'functions_blas_zdot', 'functions_blas_zdot_no_return', 'functions_spblas'):
    emit(k, 'fn', f + ', section ' + k, ['mkFn %s %s %s' % (ty(r), q(n), lst(map(param, a))) for r, n, a in sec[k]])

# definitions
def cpp(f, v, allowed):
    t = open(R + f).read(); rows = []
    def one(m):
        ret, iface, fun, ps, body = m.groups()
        if iface != v: sys.exit('interface ' + iface)
        pl = []
        for p in split(ps):
            mm = re.match(r'(.*?)\s*\*\s*(\w+)$', p); pl.append('(%s, %s)' % (param(mm.group(1)), q(mm.group(2))))
        def args(s): return lst(['AddrOf ' + q(a[1:]) if a[0] == '&' else 'Var ' + q(a) for a in split(s)])
        b = norm(body)
        m1 = re.match(r'return ::(\w+)\(([^()]*)\);$', b)
        m2 = re.match(r'(\S+) (\w+); ::(\w+)\(([^()]*)\); return (\w+);$', b)
        if m1: bb = 'RetCall %s %s' % (q(m1.group(1)), args(m1.group(2)))
        elif m2: bb = 'LocalCall %s %s %s %s %s' % (ty(m2.group(1)), q(m2.group(2)), q(m2.group(3)), args(m2.group(4)), q(m2.group(5)))
        else: sys.exit('body %r' % b)
        rows.append('mkW %s %s %s (%s)' % (ty(ret), q(fun), lst(pl), bb)); return ' '
    t = re.sub(r'([\w:<>]+)\s+BlasInterface\s*<\s*(\w+)\s*,\s*(\w+)\s*>\s*::\s*operator\(\)\s*\(\s*(.*?)\)\s*const\s*\{(.*?)\}', one, t, flags=re.S)
    leftover(t, allowed, f); return rows
ns = [r'namespace BlasBooster \{', r'\} // namespace BlasBooster']
f = 'src/Interfaces/OpenBLAS/BlasInterface_OpenBLAS.cpp'
emit('openblas_cpp', 'wrapper', f, cpp(f, 'OpenBLAS', ns + [r'#include "BlasBooster/BlasInterface/(Blas|BlasInterface_OpenBLAS).h"',
  r'extern "C" void openblas_set_num_threads\(int nbThreads\);', r'void OpenBLAS_set_num_threads\(int nbThreads\)\s*\{\s*::openblas_set_num_threads\(nbThreads\);\s*\}']))
f = 'src/Interfaces/IntelMKL/BlasInterface_IntelMKL.cpp'
emit('mkl_cpp', 'wrapper', f, cpp(f, 'IntelMKL', ns + [r'#include "BlasBooster/BlasInterface/(Blas|BlasInterface_IntelMKL|IntelMKL_SpBlas).h"', r'//[^\n]*\n',
  r'extern "C" \{\s*void MKL_Set_Dynamic \(int flag\);\s*void MKL_Set_Num_Threads\(int nbThreads\);\s*\}',
  r'void IntelMKL_set_num_threads\(int nbThreads\)\s*\{\s*::MKL_Set_Dynamic\(0\);\s*::MKL_Set_Num_Threads\(nbThreads\);\s*\}']))

# declarations of the specialisations
def hdr(f, v):
    t = open(R + f).read(); rows = []
    def one(m):
        iface, fun, ret, ps = m.groups()
        if iface != v: sys.exit('interface ' + iface)
        pl = [param(re.match(r'(.*?)\s*\*\s*\w+$', p).group(1)) for p in split(ps)]
        rows.append('mkFn %s %s %s' % (ty(ret), q(fun), lst(pl))); return ' '
    t = re.sub(r'template <>\s*struct BlasInterface\s*<\s*(\w+)\s*,\s*(\w+)\s*>\s*\{\s*([\w:<>]+)\s+operator\(\)\s*\((.*?)\)\s*const;\s*\};', one, t, flags=re.S)
    leftover(t, ns + [r'#pragma once', r'#include "(BlasInterface|FunctionTypes).h"', r'struct %s \{\};' % v, r'void %s_set_num_threads\(int nbThreads\);' % v], f); return rows
for v, n in (('OpenBLAS', 'openblas_h'), ('IntelMKL', 'mkl_h')):
    f = 'include/BlasBooster/BlasInterface/BlasInterface_%s.h' % v
    emit(n, 'fn', f, hdr(f, v))

# prototypes of the libraries
def proto(f):
    t = open(R + f).read(); rows = []
    def one(m):
        ret, fun, ps = m.groups()
        pl = []
        for p in split(ps):
            if p[-1] != '*': sys.exit('proto ' + p)
            pl.append(param(p[:-1]))
        rows.append('mkFn %s %s %s' % (ty(ret), q(fun), lst(pl))); return ' '
    t = re.sub(r'^([\w:<>]+)\s+(\w+)\((.*?)\);', one, t, flags=re.M)
    leftover(t, [r'#pragma once', r'#include <complex>', r'extern "C" \{', r'\} // extern "C"'], f); return rows
for f, n in (('Blas.h', 'blas_h'), ('IntelMKL_SpBlas.h', 'spblas_h')):
    f = 'include/BlasBooster/BlasInterface/' + f
    emit(n, 'fn', f, proto(f))

# function tags
f = 'include/BlasBooster/BlasInterface/FunctionTypes.h'
t = open(R + f).read(); rows = []
t = re.sub(r'struct (\w+)\s*\{\s*static std::string name\(\) \{ return "(\w*)"; \}\s*\};', lambda m: (rows.append('(%s, %s)' % (q(m.group(1)), q(m.group(2)))), ' ')[1], t)
leftover(t, ns + [r'#pragma once', r'#include <string>'], f)
emit('function_types', '(string * string)', f, rows)
open('/verif/rocq/theories/BlasIf_Data.v', 'w').write('''(** The committed BLAS interface files of /repo, transcribed declaration by declaration by
    tools/gen_blas.py (generated: do not edit).  The cited file follows each table; an
    entry stands for the declaration or definition of that name. *)
From Verif Require Import Base BlasIf_Model.
Require Import String.
Local Open Scope string_scope. Local Open Scope list_scope.

''' + '\n'.join(out))
