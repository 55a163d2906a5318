"""Translates declarations of mocks in Rust into terms of the model's syntax tree.

The output is that of `syn` (version 2) as far as theories/Ast.v and theories/Item.v
represent it.  Only what occurs in mockall's own tests and documentation is supported;
anything else raises `Unsupported`.
"""
import re

class Unsupported(Exception):
    pass

# ---------------------------------------------------------------- tokens

TOKEN = re.compile(r'''
    (?P<ws>\s+)
  | (?P<doc>///(?!/)[^\n]*|/\*\*(?![*/]).*?\*/)
  | (?P<innerdoc>//![^\n]*|/\*!.*?\*/)
  | (?P<comment>//[^\n]*|/\*.*?\*/)
  | (?P<str>b?r(?P<h>\#*)".*?"(?P=h)|b?c?"(?:\\.|[^"\\])*")
  | (?P<char>b?'(?:\\(?:x..|u\{[^}]*\}|.)|[^'\\])')
  | (?P<lt>'[A-Za-z_][A-Za-z0-9_]*)
  | (?P<id>(?:r\#)?[A-Za-z_][A-Za-z0-9_]*)
  | (?P<num>[0-9][0-9A-Za-z_]*(?:\.[0-9][0-9A-Za-z_]*)?)
  | (?P<p>->|=>|::|\.\.\.|\.\.=|\.\.|==|!=|<=|>=|&&|\|\||.)
''', re.X | re.S)

class Tok(str):
    """The text of a token, and the line it is on."""
    line = 0

def lex(text, line=1):
    """A list of (kind, text)."""
    out, i = [], 0
    def tok(v):
        r = Tok(v)
        r.line = line
        return r
    while i < len(text):
        m = TOKEN.match(text, i)
        k = m.lastgroup
        if k == 'h':
            k = 'str'
        v = m.group(0)
        i = m.end()
        line += v.count('\n')
        if k in ('ws', 'comment', 'innerdoc'):
            continue
        if k == 'doc':
            body = v[3:] if v.startswith('///') else v[3:-2]
            out += [('p', tok('#')), ('p', '['), ('id', 'doc'), ('p', '='), ('str', '"%s"' % body.replace('\\', '\\\\').replace('"', '\\"')), ('p', ']')]
            continue
        out.append((k, tok(v)))
    return out

def text(tokens):
    """proc_macro2's to_string: tokens separated by spaces."""
    return ' '.join(v for _, v in tokens)

# ---------------------------------------------------------------- Coq terms

def s(x):
    return '"' + x.replace('"', '""') + '"'
def lst(xs):
    return '[' + '; '.join(xs) + ']'
def opt(x):
    return 'None' if x is None else '(Some %s)' % x
def b(x):
    return 'true' if x else 'false'

# ---------------------------------------------------------------- parser

OPEN = {'(': ')', '[': ']', '{': '}'}

class P:
    def __init__(self, toks):
        self.t, self.i = toks, 0

    def peek(self, k=0):
        return self.t[self.i + k][1] if self.i + k < len(self.t) else None
    def kind(self, k=0):
        return self.t[self.i + k][0] if self.i + k < len(self.t) else None
    def end(self):
        return self.i >= len(self.t)
    def next(self):
        self.i += 1
        return self.t[self.i - 1][1]
    def at(self, *vs):
        return all(self.peek(k) == v for k, v in enumerate(vs))
    def eat(self, v):
        if self.peek() == v and self.kind() != 'str':
            self.i += 1
            return True
        # && is two &s, and >= etc. may begin with a bracket
        if len(v) == 1 and self.kind() == 'p' and self.peek() and self.peek() != '->' and self.peek() != '=>' \
                and self.peek() != '::' and self.peek().startswith(v):
            self.t[self.i] = ('p', self.peek()[1:])
            return True
        return False
    def need(self, v):
        if not self.eat(v):
            raise Unsupported('expected %s at %s' % (v, text(self.t[max(0, self.i - 8):self.i + 8])))
    def starts(self, v):
        return self.kind() == 'p' and self.peek().startswith(v) and self.peek() not in ('->', '=>', '::')
    def ident(self):
        if self.kind() != 'id':
            raise Unsupported('identifier expected at ' + text(self.t[max(0, self.i - 8):self.i + 8]))
        return self.next()
    def lifetime(self):
        if self.kind() != 'lt':
            raise Unsupported('lifetime expected')
        return self.next()[1:]

    def group(self):
        """The tokens inside the delimiters that begin here."""
        o = self.next()
        c, depth, start = OPEN[o], 0, self.i
        while True:
            k, v = self.t[self.i]
            if k == 'p' and v in OPEN:
                depth += 1
            elif k == 'p' and v in OPEN.values():
                if depth == 0:
                    r = self.t[start:self.i]
                    self.i += 1
                    return r
                depth -= 1
            self.i += 1

    def until(self, *stop):
        """Tokens up to one of [stop] outside of all delimiters."""
        start = self.i
        while not self.end():
            if self.kind() == 'p' and self.peek() in stop:
                break
            if self.kind() == 'p' and self.peek() in OPEN:
                self.group()
            else:
                self.i += 1
        return self.t[start:self.i]

    def sep(self, f, close):
        out = []
        while not self.starts(close):
            out.append(f())
            if not self.eat(','):
                break
        self.need(close)
        return out

    # -- attributes and visibility

    def attrs(self):
        out = []
        while self.at('#', '['):
            self.next()
            out.append(P(self.group()).attr())
        return out
    def attr(self):
        if self.at('unsafe', '('):
            self.next()
            return P(self.group()).attr()
        p = self.mod_path()
        if self.end():
            return 'Attribute %s None ""' % p
        if self.peek() in OPEN:
            g = self.group()
            return 'Attribute %s (Some %s) ""' % (p, s(text(g)))
        return 'Attribute %s None %s' % (p, s(text(self.t[self.i:])))
    def mod_path(self):
        lead = self.eat('::')
        segs = ['Seg %s PaNone' % s(self.ident())]
        while self.eat('::'):
            segs.append('Seg %s PaNone' % s(self.ident()))
        return '(Path %s %s)' % (b(lead), lst(segs))

    def vis(self):
        if self.at('pub'):
            self.next()
            if self.at('('):
                if self.peek(1) == 'in':
                    p = P(self.group())
                    p.next()
                    return '(VRestricted true %s)' % p.mod_path()
                if self.peek(1) in ('crate', 'super', 'self') and self.peek(2) == ')':
                    return '(VRestricted false %s)' % P(self.group()).mod_path()
            return 'VPublic'
        return 'VInherited'

    # -- paths and types

    def path(self, generics=True):
        lead = self.eat('::')
        segs = [self.seg()]
        while self.at('::'):
            self.next()
            segs.append(self.seg())
        return lead, segs
    def seg(self):
        i = self.ident()
        return 'Seg %s %s' % (s(i), self.pargs())
    def pargs(self):
        if self.at('::', '<'):
            self.next()
        if self.at('<'):
            self.next()
            return '(PaAngle %s)' % lst(self.sep(self.garg, '>'))
        if self.at('('):
            p = P(self.group())
            ins = []
            while not p.end():
                ins.append(p.ty())
                p.eat(',')
            return '(PaParen %s %s)' % (lst(ins), self.ret(plus=False))
        return 'PaNone'
    def garg(self):
        if self.kind() == 'lt':
            return 'GaLifetime %s' % s(self.lifetime())
        if self.at('{'):
            return 'GaConst %s' % s('{ %s }' % text(self.group()))
        if self.kind() in ('num', 'str', 'char') or self.peek() in ('true', 'false', '-'):
            return 'GaConst %s' % s(self.next())
        if self.kind() == 'id' and self.peek(1) == '=':
            i = self.ident()
            self.next()
            if self.kind() == 'num':
                return 'GaAssocConst %s %s' % (s(i), s(self.next()))
            return 'GaAssocType %s %s' % (s(i), self.ty())
        if self.kind() == 'id' and self.peek(1) == ':':
            i = self.ident()
            self.next()
            return 'GaConstraint %s %s' % (s(i), self.bounds())
        return 'GaType %s' % self.ty()
    def path_term(self):
        lead, segs = self.path()
        return '(Path %s %s)' % (b(lead), lst(segs))
    def binder(self):
        """for<'a, 'b>, or None"""
        if self.at('for', '<'):
            self.i += 2
            return self.sep(lambda: s(self.lifetime()), '>')
        return None
    def bound(self):
        if self.kind() == 'lt':
            return 'BLifetime %s' % s(self.lifetime())
        if self.at('('):
            return P(self.group()).bound()
        maybe = self.eat('?')
        bi = self.binder()
        if self.at('~') or self.at('const') or self.at('use', '<'):
            raise Unsupported('bound')
        return 'BTrait %s %s %s' % (b(maybe), lst(bi or []), self.path_term())
    def bounds(self, plus=True):
        out = []
        while self.kind() in ('id', 'lt') or self.at('?') or self.at('(') or self.at('::'):
            if self.at('where'):
                break
            out.append(self.bound())
            if not plus or not self.eat('+'):
                break
        return lst(out)
    def ret(self, plus=True):
        if self.at('->'):
            self.next()
            return opt(self.ty(plus))
        return 'None'
    def ty(self, plus=True):
        if self.at('!'):
            self.next()
            return 'TNever'
        if self.at('_'):
            self.next()
            return 'TInfer'
        if self.at('*'):
            self.next()
            m = self.next()
            return '(TPtr %s %s)' % (b(m == 'mut'), self.ty(False))
        if self.starts('&') :
            self.need('&')
            l = opt(s(self.lifetime())) if self.kind() == 'lt' else 'None'
            m = self.eat('mut')
            return '(TRef %s %s %s)' % (l, b(m), self.ty(False))
        if self.at('['):
            p = P(self.group())
            e = p.ty()
            if p.eat(';'):
                return '(TArray %s %s)' % (e, s(text(p.t[p.i:])))
            return '(TSlice %s)' % e
        if self.at('('):
            p = P(self.group())
            es, comma = [], False
            while not p.end():
                es.append(p.ty())
                comma = p.eat(',')
            if len(es) == 1 and not comma:
                return '(TParen %s)' % es[0]
            return '(TTuple %s)' % lst(es)
        if self.at('impl'):
            self.next()
            return '(TImplTrait %s)' % self.bounds(plus)
        if self.at('dyn') and (self.kind(1) in ('id', 'lt') or self.peek(1) in ('::', '?', '(')):
            self.next()
            return '(TDyn true %s)' % self.bounds(plus)
        save = self.i
        bi = self.binder()
        if self.at('fn') or self.at('unsafe') or self.at('extern'):
            q = []
            while not self.at('fn'):
                q.append(self.next())
            self.next()
            p = P(self.group())
            ins = []
            while not p.end():
                if p.kind() == 'id' and p.peek(1) == ':' :
                    p.i += 2
                ins.append(p.ty())
                p.eat(',')
            return '(TBareFn %s %s %s %s)' % (s(' '.join(q)), lst(bi or []), lst(ins), self.ret())
        if bi is not None:
            self.i = save
            raise Unsupported('for<> type')
        if self.at('<'):
            self.next()
            q = self.ty()
            lead, segs = False, []
            if self.eat('as'):
                lead, segs = self.path()
            n = len(segs)
            self.need('>')
            while self.at('::'):
                self.next()
                segs.append(self.seg())
            return '(TQPath %s %d (Path %s %s))' % (q, n, b(lead), lst(segs))
        if self.kind() == 'id' and self.peek(1) == '!' :
            m = self.next()
            self.next()
            return '(TMacro %s)' % s(m + ' ! ' + text(self.group()))
        lead, segs = self.path()
        return '(TPath (Path %s %s))' % (b(lead), lst(segs))

    # -- generics

    def generics(self):
        """lt_token and parameters"""
        if not self.at('<'):
            return False, []
        self.next()
        return True, self.sep(self.gparam, '>')
    def gparam(self):
        self.attrs()
        if self.kind() == 'lt':
            l = self.lifetime()
            bs = []
            if self.eat(':'):
                while self.kind() == 'lt':
                    bs.append(s(self.lifetime()))
                    self.eat('+')
            return 'GpLifetime %s %s' % (s(l), lst(bs))
        if self.at('const'):
            self.next()
            i = self.ident()
            self.need(':')
            t = self.ty()
            d = 'None'
            if self.eat('='):
                d = opt(s(text(self.until(',', '>'))))
            return 'GpConst %s %s %s' % (s(i), t, d)
        i = self.ident()
        bs = self.bounds() if self.eat(':') else '[]'
        d = opt(self.ty()) if self.eat('=') else 'None'
        return 'GpType %s %s %s' % (s(i), bs, d)
    def where(self):
        if not self.at('where'):
            return 'None'
        self.next()
        out = []
        while not self.end() and self.peek() not in ('{', ';', '='):
            if self.kind() == 'lt':
                l = self.lifetime()
                self.need(':')
                bs = []
                while self.kind() == 'lt':
                    bs.append(s(self.lifetime()))
                    self.eat('+')
                out.append('WpLifetime %s %s' % (s(l), lst(bs)))
            else:
                bi = self.binder()
                t = self.ty()
                self.need(':')
                out.append('WpType %s %s %s' % ('None' if bi is None else opt(lst(bi)), t, self.bounds()))
            if not self.eat(','):
                break
        return opt(lst(out))

    # -- functions

    def arg(self):
        self.attrs()
        save = self.i
        ref, lt, mut = False, None, False
        if self.starts('&'):
            self.next()
            ref = True
            if self.kind() == 'lt':
                lt = s(self.lifetime())
        mut = self.eat('mut')
        if self.at('self') and self.peek(1) != '::':
            self.next()
            if self.eat(':'):
                return 'FaReceiver None %s true %s' % (b(mut), self.ty())
            t = 'TPath (Path false [Seg "Self" PaNone])'
            if ref:
                return 'FaReceiver (Some %s) %s false (TRef %s %s (%s))' % (opt(lt), b(mut), opt(lt), b(mut), t)
            return 'FaReceiver None %s false (%s)' % (b(mut), t)
        self.i = save
        if self.at('...'):
            self.next()
            return None
        # pattern
        if self.at('_'):
            self.next()
            p = 'PatWild'
        elif self.kind() == 'id' and (self.peek(1) == ':' or self.peek() in ('mut', 'ref')):
            r = self.eat('ref')
            m = self.eat('mut')
            i = self.ident()
            if not self.at(':'):
                raise Unsupported('subpattern')
            p = '(PatIdent %s %s %s false)' % (b(r), b(m), s(i))
        else:
            p = '(PatOther %s)' % s(text(self.until(':')))
        self.need(':')
        if self.at('...'):
            self.next()
            return None
        return 'FaTyped %s %s' % (p, self.ty())

    def signature(self):
        """From the qualifiers to the where clause: the term, and whether it is unsafe."""
        unsafe, abi = False, 'None'
        while not self.at('fn'):
            if self.eat('unsafe'):
                unsafe = True
            elif self.eat('extern'):
                abi = '(Some None)'
                if self.kind() == 'str':
                    abi = '(Some (Some %s))' % s(self.next().strip('"'))
            elif self.peek() in ('const', 'async', 'safe'):
                self.next()
            else:
                raise Unsupported('not a function: ' + str(self.peek()))
        self.next()
        i = self.ident()
        ltok, ps = self.generics()
        p = P(self.group())
        args = []
        while not p.end():
            a = p.arg()
            if a is not None:
                args.append(a)
            p.eat(',')
        out = self.ret()
        w = self.where()
        g = 'Generics %s %s %s' % (b(ltok), lst(ps), w)
        return '(Signature %s (%s) %s %s %s)' % (s(i), g, lst(args), out, abi), unsafe, i

    def body(self):
        if self.at('{'):
            self.group()
        else:
            self.need(';')

    def is_fn(self):
        k = self.i
        while k < len(self.t) and (self.t[k][1] in ('unsafe', 'extern', 'const', 'async', 'safe') or self.t[k][0] == 'str'):
            k += 1
        return k < len(self.t) and self.t[k][1] == 'fn'

    # -- items

    def fn_item(self, attrs, vis):
        sg, u, i = self.signature()
        self.body()
        return '(FnItem %s %s %s)' % (lst(attrs), vis, sg), u, i

    def impl_items(self, allow_vis=True):
        out = []
        while not self.end():
            at = self.attrs()
            v = self.vis()
            if self.is_fn():
                out.append('IiFn %s' % self.fn_item(at, v)[0])
            elif self.eat('const'):
                i = self.ident()
                self.need(':')
                rest = self.until(';')
                self.need(';')
                out.append('IiConst %s %s' % (s(i), s(text(rest))))
            elif self.eat('type'):
                i = self.ident()
                self.generics()
                self.where()
                self.need('=')
                t = self.ty()
                self.where()
                self.need(';')
                out.append('IiType %s %s' % (s(i), t))
            else:
                raise Unsupported('impl item ' + str(self.peek()))
        return out

    def item_impl(self, attrs):
        unsafe = self.eat('unsafe')
        self.need('impl')
        ltok, ps = self.generics() if self.at('<') and self.peek(1) not in ('T',) or self.at('<') else (False, [])
        neg = self.eat('!')
        t = self.ty()
        tr = 'None'
        if self.eat('for'):
            m = re.match(r'^\(TPath (\(Path .*\))\)$', t, re.S)
            if not m:
                raise Unsupported('trait of an impl')
            tr = '(Some (%s, %s))' % (b(neg), m.group(1))
            t = self.ty()
        w = self.where()
        items = P(self.group()).impl_items()
        return '(ItemImpl %s %s (Generics %s %s %s) %s %s %s)' % (
            lst(attrs), b(unsafe), b(ltok), lst(ps), w, tr, t, lst(items))

    def trait_items(self):
        out = []
        while not self.end():
            at = self.attrs()
            if self.is_fn():
                sg, _, _ = self.signature()
                self.body()
                out.append('TiFn %s %s' % (lst(at), sg))
            elif self.eat('const'):
                i = self.ident()
                self.need(':')
                t = text(self.until('=', ';'))
                d = 'None'
                if self.eat('='):
                    d = opt(s(text(self.until(';'))))
                self.need(';')
                out.append('TiConst %s %s %s' % (s(i), s(t), d))
            elif self.eat('type'):
                i = self.ident()
                self.generics()
                bs = self.bounds() if self.eat(':') else '[]'
                self.where()
                d = opt(self.ty()) if self.eat('=') else 'None'
                self.where()
                self.need(';')
                out.append('TiType %s %s %s' % (s(i), bs, d))
            else:
                raise Unsupported('trait item ' + str(self.peek()))
        return out

    def item_trait(self, attrs, vis):
        unsafe = self.eat('unsafe')
        self.need('trait')
        i = self.ident()
        ltok, ps = self.generics()
        if self.eat(':'):
            self.bounds()
        w = self.where()
        items = P(self.group()).trait_items()
        return '(ItemTrait %s %s %s %s (Generics %s %s %s) %s)' % (
            lst(attrs), vis, b(unsafe), s(i), b(ltok), lst(ps), w, lst(items)), i

    def foreign_items(self):
        out = []
        while not self.end():
            at = self.attrs()
            v = self.vis()
            if self.is_fn():
                f, u, _ = self.fn_item(at, v)
                out.append('FiFn %s %s' % (f, b(u)))
            else:
                t = self.until(';')
                self.need(';')
                out.append('FiOther %s' % s(text(t)))
        return out

    def module_items(self):
        out = []
        while not self.end():
            start = self.i
            at = self.attrs()
            v = self.vis()
            if self.at('extern', 'crate'):
                t = self.until(';'); self.need(';')
                out.append('ItIgnored %s' % s(text(t)))
            elif (self.at('extern') or self.at('unsafe', 'extern')) and not self.is_fn():
                self.eat('unsafe')
                self.next()
                abi = 'None'
                if self.kind() == 'str':
                    abi = '(Some %s)' % s(self.next().strip('"'))
                out.append('ItForeign %s %s' % (abi, lst(P(self.group()).foreign_items())))
            elif self.is_fn():
                f, u, _ = self.fn_item(at, v)
                out.append('ItFn %s %s' % (f, b(u)))
            elif self.peek() in ('static', 'const', 'type', 'use'):
                self.until(';'); self.need(';')
                out.append('ItCopied %s' % s(text(self.t[start:self.i])))
            elif self.peek() == 'impl':
                self.until('{'); self.group()
                out.append('ItIgnored %s' % s(text(self.t[start:self.i])))
            elif self.peek() in ('mod', 'struct', 'enum', 'union', 'trait'):
                k = self.peek()
                while not self.end() and self.peek() not in ('{', ';'):
                    if self.peek() == '(':
                        self.group()
                    else:
                        self.i += 1
                self.body()
                out.append('ItNested %s' % s(text(self.t[start:self.i])))
            else:
                raise Unsupported('module item ' + str(self.peek()))
        return out

    def mock_decl(self):
        at = self.attrs()
        v = self.vis()
        i = self.ident()
        ltok, ps = self.generics()
        w = self.where()
        body = P(self.group())
        consts, methods = [], []
        while not body.end():
            ba = body.attrs()
            bv = body.vis()
            if body.is_fn():
                methods.append(body.fn_item(ba, bv)[0])
            elif body.eat('const'):
                ci = body.ident()
                body.need(':')
                consts.append('(%s, %s)' % (s(ci), s(text(body.until(';')))))
                body.need(';')
            else:
                raise Unsupported('item of mock!: ' + str(body.peek()))
        impls = []
        while not self.end():
            ia = self.attrs()
            impls.append(self.item_impl(ia))
        return '(MockDecl %s %s %s (Generics %s %s %s) %s %s %s)' % (
            lst(at), v, s(i), b(ltok), lst(ps), w, lst(consts), lst(methods), lst(impls)), i

    def automock_args(self):
        """The list of associated types in the brackets of #[automock(..)]."""
        out = []
        while not self.end():
            self.attrs()
            v = self.vis()
            self.need('type')
            i = self.ident()
            self.generics()
            t = 'None'
            if self.eat('='):
                t = opt(self.ty())
            self.need(';')
            out.append('(%s, %s)' % (s(i), t))
        return out

def find_decls(toks):
    """Every use of the macros in a file: (kind, name, term, line) in order."""
    p = P(list(toks))
    out = []
    def is_automock(g):
        q = P(list(g))
        if q.at('automock') or q.at('mockall', '::', 'automock'):
            while q.peek() in ('mockall', '::', 'automock'):
                q.next()
            return P(q.group()).automock_args() if not q.end() and q.peek() == '(' else []
        if q.at('cfg_attr'):
            q.next()
            r = P(q.group())
            r.until(',')
            r.next()
            return is_automock(r.t[r.i:])
        return None
    i = 0
    while i < len(p.t):
        p.i = i
        line = p.peek().line
        if p.at('mock', '!') and p.peek(2) in OPEN:
            p.i += 2
            g = p.group()
            end = p.i
            term, name = P(g).mock_decl()
            out.append(('mock', name, term, line))
            i = end
        elif p.at('#', '['):
            p.next()
            g = p.group()
            args = is_automock(g)
            if args is None:
                i = p.i
                continue
            at = p.attrs()
            v = p.vis()
            if p.at('trait') or p.at('unsafe', 'trait'):
                term, name = p.item_trait(at, v)
                out.append(('trait', name, lst(args) + ' ' + term, line))
            elif p.at('impl') or p.at('unsafe', 'impl'):
                out.append(('impl', None, p.item_impl(at), line))
            elif p.at('mod'):
                p.next()
                name = p.ident()
                c = opt(None if p.eat(';') else lst(P(p.group()).module_items()))
                out.append(('mod', name, '%s %s %s' % (v, s(name), c), line))
            else:
                raise Unsupported('automock of ' + str(p.peek()))
            i = p.i
        else:
            i += 1
    return out
