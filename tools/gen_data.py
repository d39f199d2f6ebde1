#!/usr/bin/env python3
"""Generate theories/DataKeyboard.v and theories/DataLayouts.v from the YAML
files shipped with lulua.  Only the YAML subset used there is understood; any
other construct raises an exception."""
import glob, os, re, sys
from fractions import Fraction

REPO = '/repo/lulua/data'
OUT = os.path.join(os.path.dirname(os.path.abspath(__file__)), '..', 'rocq', 'theories')

def scalar(s):
    s = s.strip()
    if s.startswith('"'):
        out = []; i = 1
        while s[i] != '"':
            if s[i] == '\\':
                c = s[i+1]
                if c == 'u': out.append(chr(int(s[i+2:i+6], 16))); i += 6; continue
                if c == 'x': out.append(chr(int(s[i+2:i+4], 16))); i += 4; continue
                out.append({'t':'\t','n':'\n','b':'\b','\\':'\\','"':'"'}[c]); i += 2; continue
            out.append(s[i]); i += 1
        rest = s[i+1:].strip()
        assert rest == '' or rest.startswith('#'), s
        return ''.join(out)
    if s.startswith("'"):
        m = re.match(r"'((?:[^']|'')*)'\s*(#.*)?$", s); assert m, s
        return m.group(1).replace("''", "'")
    s = re.sub(r'\s+#.*$', '', s)
    if s == '[]': return []
    if s.startswith('['):
        assert s.endswith(']'), s
        return [scalar(x) for x in s[1:-1].split(',')]
    if re.fullmatch(r'-?\d+', s): return int(s)
    if re.fullmatch(r'\d+\.\d+', s): return Fraction(s)
    if s in ('true', 'false'): return s == 'true'
    if s in ('null', '~', ''): return None
    assert not re.match(r'[&*!|>%@`{]', s), s
    return s

def lines(text):
    for l in text.split('\n'):
        if l.strip() == '' or l.lstrip().startswith('#'): continue
        yield len(l) - len(l.lstrip(' ')), l.strip()

def parse(ls, i, ind):
    if ls[i][1].startswith('- ') or ls[i][1] == '-':
        res = []
        while i < len(ls) and ls[i][0] == ind and ls[i][1].startswith('-'):
            body = ls[i][1][1:]
            off = len(body) - len(body.lstrip(' ')) + 1
            body = body.strip()
            if body.startswith('- ') or re.match(r'[A-Za-z_0-9]+:(\s|$)', body):
                ls[i] = (ind + off, body)
                v, i = parse(ls, i, ind + off)
            else:
                v = scalar(body); i += 1
            res.append(v)
        return res, i
    res = {}
    while i < len(ls) and ls[i][0] == ind and not ls[i][1].startswith('- '):
        m = re.match(r'([A-Za-z_0-9]+):(?:\s+(.*))?$', ls[i][1]); assert m, ls[i]
        k, rest = m.group(1), m.group(2)
        assert k not in res, ('duplicate key', k)
        if rest is None or rest.startswith('#'):
            i += 1
            if i < len(ls) and (ls[i][0] > ind or (ls[i][0] == ind and ls[i][1].startswith('-'))):
                v, i = parse(ls, i, ls[i][0])
            else: v = None
        else:
            v = scalar(rest); i += 1
        res[k] = v
    return res, i

def load(f):
    ls = list(lines(open(f, encoding='utf-8').read()))
    v, i = parse(ls, 0, ls[0][0])
    assert i == len(ls), ls[i]
    return v

def text(t): return '[' + '; '.join(str(ord(c)) for c in t) + ']'
def q(n): n = Fraction(n); return '(%d#%d)%%Q' % (n.numerator, n.denominator)

def main():
    kb = load(REPO + '/keyboards/ibmpc105.yaml')
    o = ['(** Generated by tools/gen_data.py from lulua/data/keyboards/ibmpc105.yaml. Do not edit. *)',
         'From Coq Require Import QArith.', 'From Verif Require Import Base KeyboardModel.',
         'Open Scope string_scope.', 'Open Scope list_scope.', '',
         '(** Statically known fields of a button: kind, name, width, isMarked, span,',
         '    scancodes (keyman, macos, windows, xorg). *)',
         'Record kbutton := mkKB {', '  kb_kind : kind; kb_name : string; kb_width : Q; kb_marked : bool; kb_span : option Q;',
         '  kb_keyman : string; kb_macos : option N; kb_windows : list N; kb_xorg : N }.', '']
    def btn(b):
        b = dict(b); kind = b.pop('kind', 'standard'); sc = b.pop('scancode')
        K = {'standard':'Standard','letter':'Letter','multi':'Multi'}[kind]
        s = 'mkKB %s "%s" %s %s %s "%s" %s %s %d' % (K, b.pop('name'), q(b.pop('width', 1)),
            'true' if b.pop('isMarked', False) else 'false',
            'None' if 'span' not in b else '(Some %s)' % q(b.pop('span')),
            sc.pop('keyman'), 'None' if 'macos' not in sc else '(Some %d%%N)' % sc.pop('macos'),
            '[' + '; '.join('%d%%N' % x for x in sc.pop('windows')) + ']', sc.pop('xorg'))
        assert not b and not sc, (b, sc)
        return s
    rows = []
    for l, r in kb['rows']:
        rows.append('  ([' + ';\n     '.join(btn(b) for b in l) + '],\n   [' + ';\n     '.join(btn(b) for b in r) + '])')
    o.append('Definition ibmpc105 : list (list kbutton * list kbutton) := [\n' + ';\n'.join(rows) + '\n].')
    open(OUT + '/DataKeyboard.v', 'w').write('\n'.join(o) + '\n')

    o = ['(** Generated by tools/gen_data.py from lulua/data/layouts/*.yaml. Do not edit. *)'.replace('/*.', '/?.'),
         'From Verif Require Import Base LayoutModel.', 'Open Scope string_scope.', 'Open Scope list_scope.', 'Local Open Scope N_scope.', '']
    names = []
    for f in sorted(glob.glob(REPO + '/layouts/*.yaml')):
        d = load(f); stem = os.path.basename(f)[:-5]; ident = 'data_' + stem.replace('-', '_'); names.append(ident)
        ls = []
        for l in d['layout']:
            cells = []
            for k, v in l['layer'].items():
                cells.append('("%s", %s)' % (k, 'CText ' + text(v) if isinstance(v, str) else 'COther'))
            mods = '[' + '; '.join('[' + '; '.join('"%s"' % x for x in m) + ']' for m in l['modifier']) + ']'
            ls.append('  mkLD %s [\n    ' % mods + ';\n    '.join(cells) + ']')
        o.append('(** %s *)' % os.path.basename(f))
        o.append('Definition %s : generic_data := mkGD "%s" [\n%s].\n' % (ident, d['name'] if d['name'] is not None else 'null', ';\n'.join(ls)))
    o.append('Definition all_layouts : list generic_data := [%s].' % '; '.join(names))
    open(OUT + '/DataLayouts.v', 'w').write('\n'.join(o) + '\n')
def fingermap():
    o = ['(** Generated by tools/gen_data.py from lulua/writer.py:28-108 (defaultFingermap). Do not edit. *)',
         'From Verif Require Import Base LayoutModel.', 'Open Scope string_scope.', 'Open Scope list_scope.', '',
         'Definition defaultFingermap : list (string * (direction * finger)) := [']
    src = open('/repo/lulua/writer.py', encoding='utf-8').read()
    body = src[src.index('defaultFingermap = {'):]; body = body[:body.index('}')]
    es = re.findall(r"^\s*'(\w+)': \((LEFT|RIGHT), (\w+)\),$", body, re.M)
    assert len(es) == body.count("': (")
    o.append(';\n'.join('  ("%s", (%s, %s))' % e for e in es) + '\n].')
    open(OUT + '/DataFingermap.v', 'w').write('\n'.join(o) + '\n')
def models():
    """lulua/carpalx.py:46-234.  Literals are written num/10^k, so that every number
    format can read them."""
    src = open('/repo/lulua/carpalx.py', encoding='utf-8').read()
    body = src[src.index('models = dict ('):src.index('def madd')]
    body = re.sub(r'#.*', '', body)
    def lit(s):
        s = s.strip()
        m = re.fullmatch(r'1-\((\S+)/(\S+)\)', s)
        if m: return '(nsub (nofZ 1) (ndiv %s %s))' % (lit(m.group(1)), lit(m.group(2)))
        m = re.fullmatch(r'(\d+)\.(\d+)', s); assert m, s
        return '(nlit %d %d)' % (int(m.group(1) + m.group(2)), 10 ** len(m.group(2)))
    o = ['(** Generated by tools/gen_data.py from lulua/carpalx.py:46-234 (models). Do not edit. *)',
         'From Coq Require Import QArith.', 'From Verif Require Import Base LayoutModel CarpalxModel.',
         'Close Scope Q_scope.', 'Open Scope string_scope.', 'Open Scope list_scope.', '',
         'Section Models.', '  Context {nm : num}.']
    for m in re.finditer(r'(\w+) = ModelParams \((.*?)\n    \),', body, re.S):
        name, b = m.groups()
        def tup(k): return [lit(x) for x in re.search(k + r' = \(([^)]*)\)', b).group(1).split(',')]
        def fin(h):
            t = re.search(r'pFinger = \{.*?' + h + r': \{(.*?)\}', b, re.S).group(1)
            return '[' + '; '.join('(%s, %s)' % (f, lit(v)) for f, v in re.findall(r'(\w+): (.*),', t)) + ']'
        ph = re.search(r'pHand = \{LEFT: (\S+), RIGHT: (\S+)\}', b)
        be = b[b.index('baselineEffort'):]
        es = re.findall(r"'(\w+)': (\S+),", be); assert len(es) == be.count(':'), (len(es), be.count(':'))
        o.append('  Definition %s : params nm := {|' % name)
        o.append('    kB := %s; kP := %s; kS := %s;' % tuple(tup('kBPS')))
        o.append('    k1 := %s; k2 := %s; k3 := %s; kSim := %s;' % tuple(tup('k123S')))
        o.append('    w0 := %s; wH := %s; wR := %s; wF := %s;' % tuple(tup('w0HRF')))
        o.append('    pHand := [(LEFT, %s); (RIGHT, %s)];' % (lit(ph.group(1)), lit(ph.group(2))))
        o.append('    pRow := [%s];' % '; '.join(tup('pRow')))
        o.append('    pFinger := [(LEFT, %s);\n                (RIGHT, %s)];' % (fin('LEFT'), fin('RIGHT')))
        o.append('    fH := %s; fR := %s; fF := %s;' % tuple(tup('fHRF')))
        o.append('    baseline := [\n' + ';\n'.join('      ("%s", %s)' % (k, lit(v)) for k, v in es) + ']\n  |}.')
    o += ['End Models.']
    open(OUT + '/DataModels.v', 'w').write('\n'.join(o) + '\n')
def winkbd():
    src = open('/repo/lulua/winkbd.py', encoding='utf-8').read()
    strip = lambda b: re.sub(r'^\s*#.*$|(?<=\S)\s+#.*$', '', b, flags=re.M)
    def body(start, end):
        i = src.index(start) + len(start); return strip(src[i:src.index(end, i)])
    vk = body('vkval = dict (', '\n    )')
    vks = re.findall(r'^\s*(\w+) = (0x[0-9A-F]+),$', vk, re.M); assert len(vks) == vk.count('=')
    fl = body('KEYEVENTF_EXTENDEDKEY, see', 'class WChar')
    fls = re.findall(r'^\s*(\w+) = (0x[0-9A-F]+)$', fl, re.M); assert len(fls) == fl.count('=') == 8
    q = body('qwertyScancodeToVk = {', '\n    }')
    qs = re.findall(r'^\s*\(([^)]*)\): \(([^)]*)\),$', q, re.M); assert len(qs) == q.count(':'), (len(qs), q.count(':'))
    n = body('qwertyScancodeToName = {', '\n    }')
    ns = re.findall(r'^\s*\(([^)]*)\): "([^"]*)",$', n, re.M); assert len(ns) == n.count(':')
    def tup(t): return '[' + '; '.join('%d' % int(x, 16) for x in t.split(',') if x.strip()) + ']'
    def syms(t):
        out = []
        for x in t.split(','):
            if not x.strip(): continue
            m = re.fullmatch(r'VirtualKey(Flag)?\.(\w+)', x.strip()); assert m, x
            out.append('%s "%s"' % ('VF' if m.group(1) else 'VK', m.group(2)))
        return '[' + '; '.join(out) + ']'
    o = ['(** Generated by tools/gen_data.py from lulua/winkbd.py. Do not edit. *)',
         'From Verif Require Import Base.', 'Open Scope string_scope.', 'Open Scope list_scope.', 'Local Open Scope N_scope.', '',
         '(** Attributes of the enumerations VirtualKey and VirtualKeyFlag. *)',
         'Inductive sym := VK (n : string) | VF (n : string).', '',
         '(** winkbd.py:36-227: vkval before numbers and letters are added *)',
         'Definition vkval0 : list (string * N) := [\n' + ';\n'.join('  ("%s", %d)' % (k, int(v, 16)) for k, v in vks) + '].', '',
         '(** winkbd.py:237-247: VirtualKeyFlag *)',
         'Definition vkflags : list (string * N) := [' + '; '.join('("%s", %d)' % (k, int(v, 16)) for k, v in fls) + '].', '',
         '(** winkbd.py:254-415: qwertyScancodeToVk *)',
         'Definition qwertyScancodeToVk : list (list N * list sym) := [\n' + ';\n'.join('  (%s, %s)' % (tup(a), syms(b)) for a, b in qs) + '].', '',
         '(** winkbd.py:457-533: qwertyScancodeToName *)',
         'Definition qwertyScancodeToName : list (list N * string) := [\n' + ';\n'.join('  (%s, "%s")' % (tup(a), b) for a, b in ns) + '].']
    open(OUT + '/DataWinkbd.v', 'w').write('\n'.join(o) + '\n')
def csrc():
    """fixed parts of the C source"""
    src = open('/repo/lulua/winkbd.py', encoding='utf-8').read()
    def quote(t):
        # no comment brackets of Coq inside of strings
        t = t.replace('"', '""')
        return '(' + ' ++ '.join('"%s"' % x for x in t.replace('(*', '(\0*').replace('*)', '*\0)').split('\0')) + ')%string'
    i = src.index('typedefs = """'); j = src.index('def makeDriverSources')
    ls = re.findall(r'(f?)"""(.*?)"""', src[i:j], re.S); assert [a for a, _ in ls] == ['', 'f', 'f', '', '']
    def template(t):
        assert '{' not in t.replace('{{', '').replace('{n}', '')
        return '[' + ';\n  '.join(quote(x.replace('{{', '{').replace('}}', '}')) for x in t.split('{n}')) + ']'
    ls = [t for _, t in ls]; assert '\\' not in ''.join(ls)
    assert ''.join(ls).isascii()
    assert 'for n in range (1, 9):' in src[i:j] and 'for n in (1, ):' in src[i:j]
    o = ['(** Generated by tools/gen_data.py from lulua/winkbd.py. Do not edit. *)',
         'From Verif Require Import Base.', 'Open Scope string_scope.', 'Open Scope list_scope.', '',
         '(** winkbd.py:658-676 *)', 'Definition typedefs1 : string := %s.' % quote(ls[0]), '',
         '(** winkbd.py:679-685: the pieces between the number of columns *)', 'Definition wcharsType : list string := %s.' % template(ls[1]), '',
         '(** winkbd.py:688-694 *)', 'Definition ligatureType : list string := %s.' % template(ls[2]), '',
         '(** winkbd.py:696-763 *)', 'Definition typedefs2 : string := %s.' % quote(ls[3]), '',
         '(** winkbd.py:765-799 *)', 'Definition entrypoint : string := %s.' % quote(ls[4])]
    open(OUT + '/DataCsrc.v', 'w').write('\n'.join(o) + '\n')
if __name__ == '__main__': main(); fingermap(); models(); winkbd(); csrc()
