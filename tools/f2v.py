#!/usr/bin/env python3
"""Transcribe the reference Fortran subroutines in /repo/m4 into Gallina.

usage: f2v.py OUT.v "Title" FILE.m4[:sub1,sub2,...] ...

Accepts the fixed-form subset those files use and stops on anything else.  A
scalar assignment becomes a binding evaluated at that point; an assignment whose
variable is never read afterwards and whose right side reads no array is left
out.  A variable assigned in a branch or a loop body and read after it is an
error, so the scoping of the bindings cannot change the meaning.
"""
import re, sys, os

ROOT = '/repo/m4'
TOK = re.compile(r'\s*(\d+\.\d*(?:d\d+)?|\d+|[A-Za-z_]\w*|\*\*|\.[a-z]+\.|[-+*/(),:=])')

def tokens(s):
    out, i = [], 0
    s = re.sub(r'\.\s*(eq|and|or|ne|lt|gt|le|ge)\s*\.', r' .\1. ', s)
    s = s.strip()
    while i < len(s):
        m = TOK.match(s, i)
        if not m: raise SyntaxError(f'token at {s[i:]!r}')
        out.append(m.group(1)); i = m.end()
    return out

class P:
    def __init__(self, toks): self.t, self.i = toks, 0
    def peek(self): return self.t[self.i] if self.i < len(self.t) else None
    def next(self): self.i += 1; return self.t[self.i-1]
    def eat(self, x):
        if self.peek() != x: raise SyntaxError(f'expected {x} at {self.t[self.i:]}')
        self.i += 1
    def cond(self):
        """A disjunction of equalities, as a list of pairs."""
        l = []
        while True:
            a = self.expr(); op = self.next()
            if op != '.eq.': raise SyntaxError(op)
            l.append((a, self.expr()))
            if self.peek() is None: return l
            self.eat('.or.')
    def expr(self):
        if self.peek() == '-': self.next(); e = ('neg', self.term())
        elif self.peek() == '+': self.next(); e = self.term()
        else: e = self.term()
        while self.peek() in ('+', '-'):
            o = self.next(); e = (o, e, self.term())
        return e
    def term(self):
        e = self.power()
        while self.peek() in ('*', '/'):
            o = self.next(); e = (o, e, self.power())
        return e
    def power(self):
        e = self.atom()
        if self.peek() == '**':
            self.next(); n = self.next()
            if n != '2': raise SyntaxError('power')
            e = ('*', e, e)
        return e
    def args(self):
        self.eat('('); l = []
        while True:
            e = self.expr()
            if self.peek() == ':': self.next(); e = ('range', e, self.expr())
            l.append(e)
            if self.peek() == ',': self.next(); continue
            self.eat(')'); return l
    def atom(self):
        t = self.next()
        if t == '(':
            e = self.expr(); self.eat(')'); return e
        if re.match(r'\d', t): return ('num', t)
        if re.match(r'[A-Za-z_]', t):
            if self.peek() == '(': return ('call', t, self.args())
            return ('id', t)
        raise SyntaxError(f'atom {t}')

def read(path):
    """Logical lines as (number, text), and the m4 definitions."""
    defs, out = {}, []
    for n, l in enumerate(open(path), 1):
        l = l.rstrip('\n')
        m = re.match(r"define\((\w+),\s*(\d+)\)", l)
        if m: defs[m.group(1)] = m.group(2); continue
        if not l.strip() or l[0] in 'cC*!' or re.match(r'(define|include|dnl)', l): continue
        l = re.sub(r'dnl$', '', l.expandtabs(8))
        if re.match(r'     [^ 0]', l): out[-1] = (out[-1][0], out[-1][1] + ' ' + l[6:]); continue
        out.append((n, l.strip()))
    out = [(n, re.sub(r'\b[A-Z]+\b', lambda m: defs.get(m.group(0), m.group(0)), l)) for n, l in out]
    return out

def stmts(lines):
    """Parse statements up to a closing keyword; returns (list, closing line)."""
    res = []
    while lines:
        n, l = lines.pop(0)
        if re.match(r'(end\s*if|end\s*do|else|end$)', l): return res, (n, l)
        if l == 'return':
            if lines and not re.match(r'end\b(?!\s*(if|do))', lines[0][1]): raise SyntaxError((n, l, lines[0]))
            continue
        if re.match(r'(implicit|parameter)', l): continue
        if re.match(r'(write|print)', l): continue
        m = re.match(r'if\s*\((.*)\)\s*then$', l)
        if m:
            branches = []
            cond = P(tokens(m.group(1))).cond()
            while True:
                body, (n2, c) = stmts(lines)
                branches.append((cond, body))
                m2 = re.match(r'else\s*if\s*\((.*)\)\s*then$', c)
                if m2: cond = P(tokens(m2.group(1))).cond(); continue
                if c == 'else': cond = None; continue
                if re.match(r'end\s*if', c): break
                raise SyntaxError((n2, c))
            res.append(('if', branches)); continue
        m = re.match(r'do\s+(\w+)\s*=\s*(.*)$', l)
        if m:
            p = P(tokens(m.group(2))); lo = p.expr(); p.eat(','); hi = p.expr()
            if p.peek() is not None: raise SyntaxError(l)
            body, (n2, c) = stmts(lines)
            if not re.match(r'end\s*do', c): raise SyntaxError((n2, c))
            res.append(('do', m.group(1), lo, hi, body)); continue
        p = P(tokens(l)); lhs = p.atom(); p.eat('='); rhs = p.expr()
        if p.peek() is not None: raise SyntaxError((n, l))
        res.append(('set', lhs, rhs))
    return res, (None, None)

def decl_items(s):
    out, d, cur = [], 0, ''
    for ch in s:
        if ch == ',' and d == 0: out.append(cur.strip()); cur = ''; continue
        d += (ch == '(') - (ch == ')'); cur += ch
    out.append(cur.strip()); return [x for x in out if x]

def subs(path, want=None):
    lines = read(path)
    total = sum(1 for _ in open(path))
    out, i = [], 0
    while i < len(lines):
        n, l = lines[i]
        m = re.match(r'recursive\s+subroutine\s+(\w+)\s*\((.*)\)\s*$', l)
        if not m: raise SyntaxError((path, n, l))
        name, args = m.group(1), [a.strip() for a in m.group(2).split(',')]
        decls, body = {}, []
        i += 1
        while i < len(lines) and lines[i][1] != 'end':
            d = re.match(r'(integer|REAL|double precision)\s+(.*)$', lines[i][1])
            if d:
                for it in decl_items(d.group(2)):
                    mm = re.match(r'(\w+)\s*(?:\((.*)\))?$', it)
                    decls[mm.group(1)] = ('Z' if d.group(1) == 'integer' else 'S', mm.group(2))
            else: body.append(lines[i])
            i += 1
        end = lines[i][0]
        i += 1
        if want is not None and name not in want: continue
        ast, rest = stmts(body)
        if rest != (None, None): raise SyntaxError(rest)
        out.append((name, args, decls, ast, n, end))
    return out

class Emit:
    def __init__(self, name, args, decls):
        self.args, self.decls = args, decls
        self.kind = {}
        for v, (ty, dims) in decls.items():
            if dims is None: k = 'int' if ty == 'Z' else 'real'
            elif re.search(r'(CELL|FACE)\d', dims): k = 'array'
            elif v in args: k = 'ivec' if ty == 'Z' else 'rvec'
            else: k = 'local'
            self.kind[v] = k
    # variables read by an expression
    def reads(self, e):
        t = e[0]
        if t == 'num': return set()
        if t == 'id': return {e[1]}
        if t == 'call':
            r = set().union(*[self.reads(a) for a in e[2]])
            if self.kind.get(e[1]) == 'local': r.add(self.loc(e))
            return r
        return set().union(*[self.reads(a) for a in e[1:]])
    def loads(self, e):
        t = e[0]
        if t in ('num', 'id'): return False
        if t == 'call': return self.kind.get(e[1]) == 'array' or any(map(self.loads, e[2]))
        return any(map(self.loads, e[1:]))
    def loc(self, e):
        if len(e[2]) != 1 or e[2][0][0] != 'num': raise SyntaxError(f'local array {e}')
        return e[1] + e[2][0][1]
    def target(self, lhs):
        if lhs[0] == 'id': return lhs[1]
        if self.kind[lhs[1]] == 'local': return self.loc(lhs)
        return None
    def live(self, l, out):
        for s in reversed(l):
            if s[0] == 'set':
                v = self.target(s[1])
                if v is None: out = out | self.reads(s[2]) | set().union(*[self.reads(a) for a in s[1][2]])
                elif v in out or self.loads(s[2]): out = (out - {v}) | self.reads(s[2])
            elif s[0] == 'if':
                o = set() if any(c is None for c, _ in s[1]) else set(out)
                for c, b in s[1]:
                    o |= self.live(b, out)
                    for a1, a2 in c or []: o |= self.reads(a1) | self.reads(a2)
                out = o
            else:
                out = out | (self.live(s[4], set()) - {s[1]}) | self.reads(s[2]) | self.reads(s[3])
        return out
    def assigned(self, l):
        r = set()
        for s in l:
            if s[0] == 'set':
                v = self.target(s[1]);  r |= {v} if v else set()
            elif s[0] == 'if':
                for _, b in s[1]: r |= self.assigned(b)
            else: r |= self.assigned(s[4])
        return r
    def z(self, e, top=True):
        t = e[0]
        if t == 'num': return e[1]
        if t == 'id':
            if self.kind[e[1]] != 'int': raise SyntaxError(f'not an integer {e}')
            return e[1]
        if t == 'call' and e[1] in ('max', 'min') :
            return self.par(f'Z.{e[1]} {self.z(e[2][0], False)} {self.z(e[2][1], False)}', top)
        if t == 'call' and self.kind.get(e[1]) == 'ivec':
            return self.par(f'{e[1]} {self.z(e[2][0], False)}', top)
        if t == 'neg': return self.par(f'- {self.z(e[1], False)}', top)
        if t in '+-*':
            l = self.z(e[1], t in '+-' and e[1][0] in ('+', '-', '*') or e[1][0] == 'call' and e[1][1] not in ('max','min'))
            r = self.z(e[2], t in '+-' and e[2][0] == '*')
            return self.par(f'{l} {t} {r}', top)
        raise SyntaxError(f'integer expression {e}')
    def par(self, s, top): return s if top else f'({s})'
    def r(self, e, top=True):
        t = e[0]
        if t == 'num':
            m = re.match(r'(\d+)(?:\.0*)?(?:d0)?$', e[1])
            if not m: raise SyntaxError(f'literal {e}')
            return '#' + m.group(1)
        if t == 'id':
            if self.kind[e[1]] != 'real': raise SyntaxError(f'not a real {e}')
            return '$' + e[1]
        if t == 'call':
            k = self.kind.get(e[1])
            if k == 'array': return f'{e[1]}!({", ".join(self.z(a) for a in e[2])})'
            if k == 'rvec': return f'$({e[1]} {self.z(e[2][0], False)})'
            if k == 'local': return '$' + self.loc(e)
            if e[1] == 'dfloat' and e[2][0][0] == 'id' and self.kind[e[2][0][1]] == 'int': return '#' + e[2][0][1]
            raise SyntaxError(f'call {e}')
        if t == 'neg': return f'(- {self.r(e[1], False)})'
        if t in ('+', '-', '*', '/'):
            ok = ('*', '/') if t in '*/' else ('+', '-', '*', '/')
            l = self.r(e[1], e[1][0] in ok)
            r = self.r(e[2], t in '+-' and e[2][0] in ('*', '/'))
            return self.par(f'{l} {t} {r}', top)
        raise SyntaxError(f'real expression {e}')
    def body(self, l, ind, out):
        """Lines for a statement list; [out] is the set of variables read afterwards."""
        sp = ' ' * ind
        if not l: return [sp + 'fskip']
        s, rest = l[0], l[1:]
        lv = self.live(rest, out)
        if s[0] == 'set':
            v = self.target(s[1])
            if v is None:
                st = f'put {s[1][1]}!({", ".join(self.z(a) for a in s[1][2])}) := {self.r(s[2])}'
                return self.then([sp + st], rest, ind, out)
            if v not in lv and not self.loads(s[2]): return self.body(rest, ind, out)
            if self.kind.get(v) == 'int':
                return [f'{sp}let {v} := ({self.z(s[2])})%Z in'] + self.body(rest, ind, out)
            return [f'{sp}scalar {v} := {self.r(s[2])} in'] + self.body(rest, ind, out)
        if s[0] == 'if':
            for _, b in s[1]:
                bad = self.assigned(b) & lv
                if bad: raise SyntaxError(f'assigned in a branch and read later: {bad}')
            ls, first = [], True
            for c, b in s[1]:
                if c is not None:
                    t = ' || '.join(f'({self.z(a)} =? {self.z(b)})' for a, b in c)
                    t = t if len(c) > 1 else t[1:-1]
                    ls.append(f'{sp}{"(if" if first else "else if"} ({t})%Z then')
                else: ls.append(f'{sp}else')
                ls += self.body(b, ind + 2, set()); first = False
            if s[1][-1][0] is not None: ls += [f'{sp}else', f'{sp}  fskip']
            ls[-1] += ')'
            return self.then(ls, rest, ind, out)
        if s[0] == 'do':
            bad = self.assigned(s[4]) & (lv | self.live(s[4], set()))
            if bad: raise SyntaxError(f'carried out of or around a loop: {bad}')
            ls = [f'{sp}do_ {self.z(s[2], False)} {self.z(s[3], False)} (fun {s[1]} =>'] + self.body(s[4], ind + 2, set())
            ls[-1] += ')'
            return self.then(ls, rest, ind, out)
    def then(self, ls, rest, ind, out):
        b = self.body(rest, ind, out)
        if [x.strip() for x in b] == ['fskip']: return ls
        ls[-1] += ' ;;;'
        return ls + b

TYPES = {'int': 'Z', 'ivec': 'Z -> Z', 'rvec': 'Z -> S', 'real': 'S', 'array': 'ptr'}

def emit(fname, name, args, decls, ast, n0, n1):
    e = Emit(name, args, decls)
    groups = []
    for a in args:
        ty = TYPES[e.kind[a]]
        if groups and groups[-1][1] == ty: groups[-1][0].append(a)
        else: groups.append(([a], ty))
    binders = ' '.join(f'({" ".join(g)} : {ty})' for g, ty in groups)
    words, lines, cur = [w.replace('~', ' ') for w in re.sub(r' : (Z -> Z|Z -> S|Z|S|ptr)\)', lambda m: '~:~' + m.group(1).replace(' ', '~') + ')', binders).split(' ')], [], f'  Definition {name}'
    for w in words:
        if len(cur) + len(w) > 100: lines.append(cur); cur = '     '
        cur += ' ' + w
    lines.append(cur + ' : mem S -> option (mem S) :=')
    for a in args:
        if e.kind[a] != 'array': continue
        d = decls[a][1].replace(' ', '')
        m = re.match(r'(?:0:(\d),)?((?:CELL|FACE)(\d)d\d?)\((\w+),(\w+),(\w+)\)$', d)
        if not m: raise SyntaxError(d)
        k, mac, dim, lo, hi, g = m.groups()
        b = ' '.join([f'{lo}{i}' for i in range(int(dim))] + [f'{hi}{i}' for i in range(int(dim))])
        dims = f'({mac} {b} {g})' if k is None else f'((0, {k}) :: {mac} {b} {g})'
        lines.append(f'    let {a} := mkFa {a} {dims} in')
    b = e.body(ast, 4, set())
    b[0] = '    (' + b[0].strip(); b[-1] += ')%F.'
    return [f'  (** {fname}:{n0}-{n1} *)'] + lines + b + ['']

def main():
    out, title, specs = sys.argv[1], sys.argv[2], sys.argv[3:]
    L = [f'(** * {title}', '',
         '    Transcribed statement by statement by tools/f2v.py from the m4 sources.  An',
         '    assignment to a local scalar is the binding [scalar x := e in ...], evaluated',
         '    where it stands; assignments to variables that are never read are left out. *)', '',
         'From Verif Require Import Base FortranBase.', 'Import ListNotations.', 'Open Scope Z_scope.', '',
         f'Section {os.path.basename(out)[:-2]}.', '  Context {S : Scalar}.', '']
    for sp in specs:
        f, _, names = sp.partition(':')
        want = set(names.split(',')) if names else None
        for s in subs(os.path.join(ROOT, f), want): L += emit(f, *s)
    L[-1] = f'End {os.path.basename(out)[:-2]}.'
    open(out, 'w').write('\n'.join(L) + '\n')

main()
