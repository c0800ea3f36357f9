#!/usr/bin/env python3
"""Writes theories/DemoImages.v: small .NET images used by the examples of the proofs.

They are written from the ECMA-335 layouts, independently of the model."""
import struct, sys, os

def comp(n):
    if n < 0x80: return bytes([n])
    if n < 0x4000: return struct.pack('>H', n | 0x8000)
    return struct.pack('>I', n | 0xC0000000)

class Image:
    def __init__(self, name):
        self.strings = b'\0'; self.blob = b'\0'; self.us = b'\0'
        self.sidx = {'': 0}; self.rows = {}
        self.bodies = b''; self.name = name; self.entry = 0
        self.fixups = []
    def s(self, x):
        if x not in self.sidx:
            self.sidx[x] = len(self.strings); self.strings += x.encode() + b'\0'
        return self.sidx[x]
    def b(self, x):
        if not x: return 0
        o = len(self.blob); self.blob += comp(len(x)) + x; return o
    def ustr(self, x):
        o = len(self.us); u = x.encode('utf-16-le')
        self.us += comp(len(u) + 1) + u + b'\0'; return 0x70000000 | o
    def row(self, t, data):
        self.rows.setdefault(t, []).append(data); return len(self.rows[t])
    def count(self, t): return len(self.rows.get(t, []))
    def typedef(self, ns, n, extends=0, flags=0x100001):
        """extends: a TypeDefOrRef coded index"""
        return self.row(2, struct.pack('<IHHHHH', flags, self.s(n), self.s(ns), extends,
                                       self.count(4) + 1, self.count(6) + 1))
    def typeref(self, ns, n, scope=(1 << 2) | 2):
        """scope: a ResolutionScope coded index"""
        return self.row(1, struct.pack('<HHH', scope, self.s(n), self.s(ns)))
    def field(self, n, sig, flags=6):
        return self.row(4, struct.pack('<HHH', flags, self.s(n), self.b(b'\x06' + sig)))
    def method(self, n, sig, body=None, params=(), flags=0x16, impl=0):
        rva = 0
        if body is not None:
            while len(self.bodies) % 4: self.bodies += b'\0'
            rva = 0x1048 + len(self.bodies); self.bodies += body
        plist = self.count(8) + 1
        for i, q in enumerate(params): self.row(8, struct.pack('<HHH', 0, i + 1, self.s(q)))
        return self.row(6, struct.pack('<IHHHHH', rva, impl, flags, self.s(n), self.b(sig), plist))
    def memberref(self, typeref, n, sig):
        return self.row(10, struct.pack('<HHH', (typeref << 3) | 1, self.s(n), self.b(sig)))
    def locals(self, types):
        return self.row(0x11, struct.pack('<H', self.b(b'\x07' + comp(len(types)) + b''.join(types))))
    def interface(self, cls, iface):
        return self.row(9, struct.pack('<HH', cls, iface))
    def build(self, refs=()):
        self.row(0, struct.pack('<HHHHH', 0, self.s(self.name), 0, 0, 0))
        self.row(0x20, struct.pack('<IHHHHIHHH', 0, 1, 0, 0, 0, 0, 0, self.s(self.name), 0))
        for r in refs:
            self.row(0x23, struct.pack('<HHHHIHHHH', 1, 0, 0, 0, 0, 0, self.s(r), 0, 0))
        valid = sum(1 << t for t in self.rows)
        tables = struct.pack('<IBBBBQQ', 0, 2, 0, 0, 1, valid, 0)
        for t in sorted(self.rows): tables += struct.pack('<I', len(self.rows[t]))
        for t in sorted(self.rows): tables += b''.join(self.rows[t])
        pad = lambda x: x + b'\0' * (-len(x) % 4)
        streams = [('#~', pad(tables)), ('#Strings', pad(self.strings)), ('#US', pad(self.us)),
                   ('#GUID', b''), ('#Blob', pad(self.blob))]
        head = b'BSJB' + struct.pack('<HHII', 1, 1, 0, 12) + b'v4.0.30319\0\0' + struct.pack('<HH', 0, len(streams))
        size = len(head) + sum(8 + len(pad(n.encode() + b'\0')) for n, _ in streams)
        off = size; hdrs = b''; data = b''
        for n, d in streams:
            hdrs += struct.pack('<II', off, len(d)) + pad(n.encode() + b'\0'); off += len(d); data += d
        md = head + hdrs + data
        bodies = pad(self.bodies)
        cli = struct.pack('<IHHIIII', 72, 2, 5, 0x1048 + len(bodies), len(md), 1, self.entry) + b'\0' * 48
        sect = cli + bodies + md
        out = b'MZ' + b'\0' * 58 + struct.pack('<I', 0x40) + b'PE\0\0'
        out += struct.pack('<HHIIIHH', 0x14c, 1, 0, 0, 0, 0xe0, 0)
        opt = struct.pack('<H', 0x10b) + b'\0' * 90 + struct.pack('<I', 16)
        opt += b'\0' * 8 * 14 + struct.pack('<II', 0x1000, 72) + b'\0' * 8
        out += opt
        ptr = len(out) + 40
        out += b'.text\0\0\0' + struct.pack('<IIII', len(sect), 0x1000, len(sect), ptr) + b'\0' * 16
        assert len(out) == ptr
        return out + sect

def tiny(code):
    assert len(code) < 64
    return bytes([len(code) << 2 | 2]) + code
def fat(code, locals_row=0, max_stack=8, clauses=(), init=True):
    """clauses: small clauses (kind, try_off, try_len, h_off, h_len, token)"""
    flags = 3 | (0x10 if init else 0) | (8 if clauses else 0)
    r = bytes([flags, 0x30]) + struct.pack('<HII', max_stack, len(code), 0x11000000 | locals_row if locals_row else 0) + code
    if clauses:
        r += b'\0' * (-len(r) % 4) + bytes([1, 12 * len(clauses) + 4, 0, 0])
        for c in clauses: r += struct.pack('<HHBHBI', *c)
    return r

VOID, BOOL, CHAR, I1, U1, I2, U2, I4, U4, I8, U8, R4, R8, STR = [bytes([x]) for x in range(1, 15)]
OBJ = b'\x1c'
def static(ret, *ps): return b'\x00' + comp(len(ps)) + ret + b''.join(ps)
def inst(ret, *ps): return b'\x20' + comp(len(ps)) + ret + b''.join(ps)
td = lambda r: r << 2
tref = lambda r: r << 2 | 1
def i4(n): return struct.pack('<i', n)
def tok(t): return struct.pack('<I', t)

def runtime_image():
    m = Image('System.Runtime')
    m.typedef('', '<Module>', 0, 0)
    obj = m.typedef('System', 'Object')
    m.method('.ctor', inst(VOID), tiny(b'\x2a'), flags=0x1886)
    vt = m.typedef('System', 'ValueType', td(obj), 0x100081)
    for n in ['Void', 'Boolean', 'Char', 'SByte', 'Byte', 'Int16', 'UInt16', 'Int32', 'UInt32', 'Int64', 'UInt64',
              'Single', 'Double']:
        m.typedef('System', n, td(vt), 0x100109)
    m.typedef('System', 'String', td(obj))
    m.typedef('System', 'Array', td(obj), 0x100081)
    m.typedef('System', 'Exception', td(obj))
    return m.build()

def console_image():
    m = Image('System.Console')
    objr = m.typeref('System', 'Object')
    m.typedef('', '<Module>', 0, 0)
    m.typedef('System', 'Console', tref(objr), 0x100181)
    m.method('Write', static(VOID, STR), None, ['value'], flags=0x96, impl=0x1000)
    return m.build(['System.Runtime'])

def app_image():
    """Two classes, one derived from the other, with fields, an interface, an array field,
    static methods, a body with locals and an exception clause, and a call to the console."""
    m = Image('App')
    objr = m.typeref('System', 'Object')
    conr = m.typeref('System', 'Console')
    excr = m.typeref('System', 'Exception')
    write = m.memberref(conr, 'Write', static(VOID, STR))
    ctor = m.memberref(objr, '.ctor', inst(VOID))
    m.typedef('', '<Module>', 0, 0)
    shape = m.typedef('App', 'IShape', 0, 0xa1)
    point = m.typedef('App', 'Point', tref(objr))
    fx = m.field('x', I4)
    fy = m.field('y', I8)
    m.method('.ctor', inst(VOID), tiny(b'\x02\x28' + tok(0x0a000000 | ctor) + b'\x2a'), flags=0x1886)
    named = m.typedef('App', 'Named', td(point))
    fn = m.field('name', STR)
    fs = m.field('cells', b'\x1d' + I4)
    m.typedef('App', 'Program', tref(objr))
    loc = m.locals([I4, I4])
    # static int Add(int a, int b) => a + b
    add = m.method('Add', static(I4, I4, I4), tiny(b'\x02\x03\x58\x2a'), ['a', 'b'])
    # static void Main()  { Console.Write("hi"); }
    main = m.method('Main', static(VOID), tiny(b'\x72' + tok(m.ustr('hi')) + b'\x28' + tok(0x0a000000 | write) + b'\x2a'))
    # static int Sum(int n) { int s = 0; int i = 0; while (i < n) { s += i; i++; } return s; }
    code = (b'\x16\x0a' b'\x16\x0b' b'\x2b\x08' b'\x06\x07\x58\x0a' b'\x07\x17\x58\x0b' b'\x07\x02\x32\xf4' b'\x06\x2a')
    m.method('Sum', static(I4, I4), fat(code, loc, 2), ['n'])
    # a body with a clause
    m.method('Guarded', static(VOID), fat(b'\x00\xde\x00\x26\xde\x00\x2a', 0, 1,
             [(0, 0, 3, 3, 3, 0x01000000 | excr), (2, 0, 3, 3, 3, 0)]))
    # static int MakePoint() { new Point { x = 7 }.x }
    code = (b'\x73' + tok(0x06000001) + b'\x0a' b'\x06\x1d\x7d' + tok(0x04000001) + b'\x06\x7b' + tok(0x04000001) + b'\x2a')
    locp = m.locals([b'\x12' + comp(td(point))])
    m.method('MakePoint', static(I4), fat(code, locp, 3))
    # static int Cells(int n) { var a = new int[n]; a[0] = n; return a[0] + a.Length; }
    code = (b'\x02\x8d' + tok(0x01000000 | objr) + b'\x2a')
    m.interface(point, td(shape))
    m.entry = 0x06000000 | main
    return m.build(['System.Runtime', 'System.Console'])

def lab_image():
    """Small programs that the examples and counterexamples about execution run."""
    m = Image('Lab')
    objr = m.typeref('System', 'Object')
    intr = m.typeref('System', 'Int32')
    strr = m.typeref('System', 'String')
    conr = m.typeref('System', 'Console')
    write = m.memberref(conr, 'Write', static(VOID, STR))
    m.typedef('', '<Module>', 0, 0)
    box = m.typedef('Lab', 'Box', tref(objr))
    m.field('x', I4); m.field('y', I8); m.field('s', I2); m.field('t', I2)
    # Box(int a, int b) { x = a - b; }
    ctor = m.method('.ctor', inst(VOID, I4, I4), tiny(b'\x02\x03\x04\x59\x7d' + tok(0x04000001) + b'\x2a'),
                    ['a', 'b'], flags=0x1886)
    m.typedef('Lab', 'Tests', tref(objr), 0x100181)
    call = lambda r: b'\x28' + tok(0x06000000 | r)
    # static void Junk(): leaves an operand behind
    junk = m.method('Junk', static(VOID), tiny(b'\x16\x2a'))
    # static int UseJunk() { 7; Junk(); return }
    m.method('UseJunk', static(I4), tiny(b'\x1d' + call(junk) + b'\x2a'))
    # static void Thief(): pops an operand of its caller
    thief = m.method('Thief', static(VOID), tiny(b'\x26\x2a'))
    m.method('UseThief', static(I4), tiny(b'\x1d\x1b' + call(thief) + b'\x2a'))
    # static int Minus(int a, int b) => a - b
    minus = m.method('Minus', static(I4, I4, I4), tiny(b'\x02\x03\x59\x2a'), ['a', 'b'])
    # static int UseMinus(int a) => 7 * Minus(a, 1)
    m.method('UseMinus', static(I4, I4), tiny(b'\x1d\x02\x17' + call(minus) + b'\x5a\x2a'), ['a'])
    # static int Many(int n) { int i = 0; int s = 0; while (i < n) { s = Minus(s, i); i++ } return s; }
    loc2 = m.locals([I4, I4])
    loop = b'\x07\x06' + call(minus) + b'\x0b' + b'\x06\x17\x58\x0a'
    code = (b'\x16\x0a\x16\x0b' + b'\x2b' + bytes([len(loop)]) + loop + b'\x06\x02\x32' +
            struct.pack('b', -(len(loop) + 4)) + b'\x07\x2a')
    m.method('Many', static(I4, I4), fat(code, loc2, 2), ['n'])
    # static int Deep(int n) => n == 0 ? 0 : Deep(n - 1) + n
    deep = m.count(6) + 1
    m.method('Deep', static(I4, I4), tiny(b'\x02\x2d\x02\x16\x2a' + b'\x02\x17\x59' + call(deep) + b'\x02\x58\x2a'), ['n'])
    # static long Unset() { long l; return l; }
    locl = m.locals([I8])
    m.method('Unset', static(I8), fat(b'\x06\x2a', locl, 1))
    # static int UnsetAdd() { int i; return i + 1; }
    loc1 = m.locals([I4])
    m.method('UnsetAdd', static(I4), fat(b'\x06\x17\x58\x2a', loc1, 2))
    new = b'\x73' + tok(0x06000000 | ctor)
    # static object Make() => new Box(9, 2)
    m.method('Make', static(OBJ), tiny(b'\x1f\x09\x18' + new + b'\x2a'))
    # static int MakeX(int a, int b) => new Box(a, b).x
    m.method('MakeX', static(I4, I4, I4), tiny(b'\x02\x03' + new + b'\x7b' + tok(0x04000001) + b'\x2a'), ['a', 'b'])
    newarr = lambda r: b'\x8d' + tok(0x01000000 | r)
    # static int Get(int n, int i) => new int[n][i]
    m.method('Get', static(I4, I4, I4), tiny(b'\x02' + newarr(intr) + b'\x03\x94\x2a'), ['n', 'i'])
    # static int Set(int n, int i, int v, int j) { var a = new int[n]; a[i] = v; return a[j]; }
    loca = m.locals([b'\x1d' + I4])
    m.method('Set', static(I4, I4, I4, I4, I4),
             fat(b'\x02' + newarr(intr) + b'\x0a' + b'\x06\x03\x04\x9e' + b'\x06\x05\x94\x2a', loca, 3), ['n', 'i', 'v', 'j'])
    # static int Grow(int n) { var b = new Box(9, 2); new int[n]; return b.x; }
    locb = m.locals([b'\x12' + comp(td(box))])
    m.method('Grow', static(I4, I4), fat(b'\x1f\x09\x18' + new + b'\x0a' + b'\x02' + newarr(intr) + b'\x26' +
             b'\x06\x7b' + tok(0x04000001) + b'\x2a', locb, 3), ['n'])
    # static int Narrow(int a, int b) { var b = new Box(0, 0); b.t = a; b.s = b; return b.t; }
    m.method('Narrow', static(I4, I4, I4), fat(b'\x16\x16' + new + b'\x0a' + b'\x06\x02\x7d' + tok(0x04000004) +
             b'\x06\x03\x7d' + tok(0x04000003) + b'\x06\x7b' + tok(0x04000004) + b'\x2a', locb, 3), ['a', 'b'])
    # static void Hello() { Say("a"); Say("b"); }
    say = m.method('Say', static(VOID, STR), tiny(b'\x02\x28' + tok(0x0a000000 | write) + b'\x02\x28' + tok(0x0a000000 | write) + b'\x2a'), ['text'])
    m.method('Hello', static(VOID), tiny(b'\x72' + tok(m.ustr('a')) + call(say) + b'\x72' + tok(m.ustr('\u00e9\U0001f600')) + call(say) + b'\x2a'))
    m.entry = 0
    return m.build(['System.Runtime', 'System.Console'])

def zoo_image():
    """Types for the examples about layouts, member references and overloads."""
    m = Image('Zoo')
    objr = m.typeref('System', 'Object')
    vtr = m.typeref('System', 'ValueType')
    conr = m.typeref('System', 'Console')
    m.typedef('', '<Module>', 0, 0)
    pair = m.typedef('Zoo', 'Pair', tref(vtr), 0x100109)
    m.field('a', I4); m.field('b', I2)
    base = m.typedef('Zoo', 'Base', tref(objr))
    m.field('l', I8); m.field('p', b'\x11' + comp(td(pair)))
    m.method('.ctor', inst(VOID), tiny(b'\x2a'), flags=0x1886)
    derived = m.typedef('Zoo', 'Derived', td(base))
    m.field('c', U1); m.field('d', I4)
    m.method('Stay', static(I4), tiny(b'\x16\x2a'))
    # a static field before an instance field
    m.typedef('Zoo', 'Shared', tref(objr))
    m.field('count', I4, flags=0x16); m.field('own', I4)
    # two overloads
    m.typedef('Zoo', 'Helper', tref(objr))
    m.method('Run', static(I4, I4), tiny(b'\x17\x2a'), ['x'])
    m.method('Run', static(I4, I8), tiny(b'\x18\x2a'), ['y'])
    # the first row names a method of this assembly, the second one a method of another
    m.row(10, struct.pack('<HHH', derived << 3, m.s('Stay'), m.b(static(I4))))
    m.memberref(conr, 'Write', static(VOID, STR))
    m.memberref(objr, '.ctor', inst(VOID))
    return m.build(['System.Runtime', 'System.Console'])

def client_image():
    """Refers to the first of two overloads; has no entry point."""
    m = Image('Client')
    objr = m.typeref('System', 'Object')
    helper = m.typeref('Zoo', 'Helper')
    run = m.memberref(helper, 'Run', static(I4, I4))
    m.typedef('', '<Module>', 0, 0)
    m.typedef('Client', 'Program', tref(objr))
    m.method('Main', static(I4), tiny(b'\x17\x28' + tok(0x0a000000 | run) + b'\x2a'))
    return m.build(['System.Runtime', 'Zoo'])

def first_image():
    """Its entry point is its first method."""
    m = Image('First')
    objr = m.typeref('System', 'Object')
    m.typedef('', '<Module>', 0, 0)
    m.typedef('First', 'Program', tref(objr))
    m.entry = 0x06000000 | m.method('Main', static(I4), tiny(b'\x17\x2a'))
    return m.build(['System.Runtime'])

def broken_image():
    """Fails to load when its types have been registered: an unknown internal method."""
    m = Image('Broken')
    objr = m.typeref('System', 'Object')
    m.typedef('', '<Module>', 0, 0)
    m.typedef('Broken', 'Program', tref(objr))
    m.method('Fly', static(VOID, I4), None, ['x'], flags=0x96, impl=0x1000)
    return m.build(['System.Runtime'])

def ring_image():
    """Refers to itself."""
    m = Image('Ring')
    objr = m.typeref('System', 'Object')
    m.typedef('', '<Module>', 0, 0)
    m.typedef('Ring', 'Program', tref(objr))
    return m.build(['System.Runtime', 'Ring'])

def knot_image():
    """A class that extends itself."""
    m = Image('Knot')
    m.typedef('Knot', 'Loop', td(1))
    return m.build(['System.Runtime'])

def sponge_image():
    """A struct with a field of its own type, which is only known to be a struct when its base is resolved."""
    m = Image('Sponge')
    vtr = m.typeref('System', 'ValueType')
    m.typedef('', '<Module>', 0, 0)
    m.typedef('Sponge', 'Cell', td(3), 0x100109)
    m.field('c', b'\x11' + comp(td(2)))
    m.typedef('Sponge', 'Base', tref(vtr), 0x100081)
    return m.build(['System.Runtime'])

def spin_image():
    """A method that jumps to itself, one that calls itself and two that do neither."""
    m = Image('Spin')
    objr = m.typeref('System', 'Object')
    m.typedef('', '<Module>', 0, 0)
    m.typedef('Spin', 'Program', tref(objr))
    m.method('Spin', static(VOID), tiny(b'\x2b\xfe'))
    m.method('Fall', static(VOID), tiny(b'\x28' + tok(0x06000002) + b'\x2a'))
    # static int Pick(int n) => n == 0 ? 0 : Twice(n)
    m.method('Pick', static(I4, I4), tiny(b'\x02\x2d\x02\x16\x2a' + b'\x02\x28' + tok(0x06000004) + b'\x2a'), ['n'])
    # static int Twice(int n) => n + n
    m.method('Twice', static(I4, I4), tiny(b'\x02\x02\x58\x2a'), ['n'])
    return m.build(['System.Runtime'])

def params_image():
    """Methods whose parameter rows are numbered 0, 1, 2, are missing, and are as usual."""
    m = Image('Params')
    objr = m.typeref('System', 'Object')
    m.typedef('', '<Module>', 0, 0)
    m.typedef('Params', 'Program', tref(objr))
    for i, q in enumerate(['result', 'x', 'y']): m.row(8, struct.pack('<HHH', 0, i, m.s(q)))
    m.row(6, struct.pack('<IHHHHH', 0x1048, 0, 0x16, m.s('Marked'), m.b(static(I4, I4, I4)), 1))
    m.bodies += tiny(b'\x02\x2a')
    m.method('Silent', static(I4, I4), tiny(b'\x02\x2a'))
    m.method('Usual', static(I4, I4), tiny(b'\x02\x2a'), ['z'])
    # overloads for types of the same name in two namespaces
    m.typedef('First', 'Thing', tref(objr))
    m.typedef('Second', 'Thing', tref(objr))
    m.typedef('Params', 'User', tref(objr))
    m.method('Use', static(VOID, b'\x12' + comp(td(3))), tiny(b'\x2a'), ['one'])
    m.method('Use', static(VOID, b'\x12' + comp(td(4))), tiny(b'\x2a'), ['two'])
    return m.build(['System.Runtime'])

def mute_image():
    """A method with a parameter and no row for it."""
    m = Image('Mute')
    objr = m.typeref('System', 'Object')
    m.typedef('', '<Module>', 0, 0)
    m.typedef('Mute', 'Program', tref(objr))
    m.method('Silent', static(I4, I4), tiny(b'\x02\x2a'))
    return m.build(['System.Runtime'])

def left_image():
    """A type Shapes.Box with fields of types int, object and bool."""
    m = Image('Left')
    objr = m.typeref('System', 'Object')
    m.typedef('', '<Module>', 0, 0)
    m.typedef('Shapes', 'Box', tref(objr))
    m.field('side', I4); m.field('inner', b'\x1c'); m.field('open', b'\x02')
    return m.build(['System.Runtime'])

def right_image():
    """Another Shapes.Box, and two types that have each a nested type Item."""
    m = Image('Right')
    objr = m.typeref('System', 'Object')
    m.typedef('', '<Module>', 0, 0)
    m.typedef('Shapes', 'Box', tref(objr))
    outer = [m.typedef('Right', n, tref(objr)) for n in ('Chest', 'Drawer')]
    for o in outer:
        m.row(0x29, struct.pack('<HH', m.typedef('', 'Item', tref(objr), 0x100002), o))
    return m.build(['System.Runtime'])

def guest_image():
    """Refers to both types Shapes.Box and to both types Item."""
    m = Image('Guest')
    objr = m.typeref('System', 'Object')
    for r in (2, 3): m.typeref('Shapes', 'Box', (r << 2) | 2)
    outer = [m.typeref('Right', n, (3 << 2) | 2) for n in ('Chest', 'Drawer')]
    for o in outer: m.typeref('', 'Item', (o << 2) | 3)
    m.typedef('', '<Module>', 0, 0)
    m.typedef('Guest', 'Program', tref(objr))
    return m.build(['System.Runtime', 'Left', 'Right'])

def write(path, intro, images):
    with open(path, 'w') as f:
        f.write('''(** ''' + intro + ''' small .NET images, written by tools/demo_images.py from the layouts in ECMA-335.
    Only examples use them. *)
From Coq Require Import NArith String Ascii List.
From Coq.Strings Require Import Byte.
From Verif Require Import Base%s.
Import ListNotations.
Open Scope N_scope.

''' % (' DemoImages' if intro != 'Four' else ''))
        if intro == 'Four': f.write('''Definition hex_digit (a : ascii) : N :=
  let n := N_of_ascii a in if n <? 58 then n - 48 else n - 87.
Fixpoint hex (s : string) : list byte :=
  match s with
  | String a (String b s') => nb (hex_digit a * 16 + hex_digit b) :: hex s'
  | _ => []
  end.

''')
        for n, d in images:
            h = d.hex()
            f.write('Definition %s_hex : string :=\n  "' % n)
            f.write(h)
            f.write('"%string.\n')
            f.write('Definition %s : list byte := Eval vm_compute in hex %s_hex.\n\n' % (n, n))

if __name__ == '__main__':
    here = os.path.dirname(os.path.abspath(__file__))
    write(os.path.join(here, '..', 'rocq', 'theories', 'DemoImages.v'), 'Four',
          [('system_runtime', runtime_image()), ('system_console', console_image()), ('app_image', app_image()),
           ('lab_image', lab_image())])
    write(os.path.join(here, '..', 'rocq', 'theories', 'ZooImages.v'), 'Four more',
          [('zoo_image', zoo_image()), ('client_image', client_image()),
           ('first_image', first_image()), ('broken_image', broken_image())])
    write(os.path.join(here, '..', 'rocq', 'theories', 'KnotImages.v'), 'Three more',
          [('ring_image', ring_image()), ('knot_image', knot_image()), ('sponge_image', sponge_image())])
    write(os.path.join(here, '..', 'rocq', 'theories', 'SpinImages.v'), 'One more set of',
          [('spin_image', spin_image())])
    write(os.path.join(here, '..', 'rocq', 'theories', 'ParamImages.v'), 'Two more',
          [('params_image', params_image()), ('mute_image', mute_image())])
    write(os.path.join(here, '..', 'rocq', 'theories', 'ScopeImages.v'), 'Three further',
          [('left_image', left_image()), ('right_image', right_image()), ('guest_image', guest_image())])
