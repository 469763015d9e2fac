#!/usr/bin/env python3
"""Writes rocq/theories/Replay_*.v: the assertions of the project's own unit tests (src/libunicode/*_test.cpp), replayed on the model.
   The generated files are committed; this script needs /repo only to copy the text literals of width_test.cpp."""
import os, re, unicodedata
here = os.path.dirname(os.path.abspath(__file__))
out = os.path.join(here, '..', 'rocq', 'theories')
repo = '/repo/src/libunicode/'

# ---------------------------------------------------------------------------------------------- property table
extpic = {0xA9, 0x231A, 0x261D, 0x2642, 0x2714, 0x2764, 0x270C, 0x1F3F3, 0x1F441, 0x1F467, 0x1F466, 0x1F468, 0x1F469, 0x1F480, 0x1F525,
          0x1F5E8, 0x1F600, 0x1F60A, 0x1F6D1, 0x1F926, 0x1F9B0, 0x1FA79}
varbase = {0xA9, 0x231A, 0x261D, 0x2642, 0x2714, 0x2764, 0x270C, 0x1F3F3, 0x1F441, 0x1F5E8} | set(range(0x30, 0x3A))
emoji_pres = {0x231A, 0x1F466, 0x1F467, 0x1F468, 0x1F469, 0x1F480, 0x1F525, 0x1F600, 0x1F60A, 0x1F6D1, 0x1F926, 0x1F9B0, 0x1FA79}
linker = {0x94D, 0xACD, 0xD4D, 0x1039, 0x17D2, 0x1B44}
virama = linker | {0xA4D, 0xBCD, 0xCCD, 0xDCA}
consonant = {0x915, 0x924, 0x928, 0x92F, 0x937, 0xAB8, 0xD2E, 0x1018, 0x1019, 0x1780, 0x178F, 0x1796, 0x179A, 0x179F, 0x1B24, 0x1B26}
spacing = {0x903, 0x93E, 0x93F, 0xE33, 0xEB3}
prepend = {0x600, 0x6DD, 0x70F, 0x110BD}
hebrew = {0x5D0, 0x5D1}
kata = {0x30AB, 0x30BF, 0x30CA}
RI = set(range(0x1F1E6, 0x1F200))

def gcb(c):
    if c == 0xD: return 'GCR'
    if c == 0xA: return 'GLF'
    if c == 0x200D: return 'GZWJ'
    if c in RI: return 'GRI'
    if c in prepend: return 'GPrepend'
    if c in spacing: return 'GSpacingMark'
    if c == 0x200C or 0x1F3FB <= c <= 0x1F3FF or c in (0xBBE, 0x1B44): return 'GExtend'
    if 0x1100 <= c <= 0x115F or 0xA960 <= c <= 0xA97C: return 'GL'
    if 0x1160 <= c <= 0x11A7 or 0xD7B0 <= c <= 0xD7C6: return 'GV'
    if 0x11A8 <= c <= 0x11FF or 0xD7CB <= c <= 0xD7FB: return 'GT'
    if 0xAC00 <= c <= 0xD7A3: return 'GLV' if (c - 0xAC00) % 28 == 0 else 'GLVT'
    k = unicodedata.category(chr(c))
    if k in ('Mn', 'Me'): return 'GExtend'
    if k in ('Cc', 'Cf', 'Zl', 'Zp'): return 'GControl'
    return 'GOther'
def incb(c):
    if c in linker: return 'ILinker'
    if c in consonant: return 'IConsonant'
    return 'IExtend' if gcb(c) in ('GExtend', 'GZWJ') else 'INone'
def wb(c):
    g = gcb(c)
    d = {0xD: 'WCR', 0xA: 'WLF', 0x20: 'WWSegSpace', 0x22: 'WDoubleQuote', 0x27: 'WSingleQuote', 0x2C: 'WMidNum', 0x2E: 'WMidNumLet',
         0x3A: 'WMidLetter', 0x3B: 'WMidNum', 0x5F: 'WExtendNumLet', 0x200D: 'WZWJ', 0xAD: 'WFormat', 0x2018: 'WMidNumLet'}
    if c in d: return d[c]
    if c in RI: return 'WRI'
    if c in hebrew: return 'WHebrew'
    if c in kata: return 'WKatakana'
    if g == 'GExtend' or unicodedata.category(chr(c)) == 'Mc': return 'WExtend'
    k = unicodedata.category(chr(c))
    if k == 'Nd': return 'WNumeric'
    if k in ('Lu', 'Ll'): return 'WALetter'
    return 'WOther'
def width(c):          # the rule of the generator (C80): Mn, Me, Mc, Cc, Cf, ... are 0 columns; V and T jamos 0
    k = unicodedata.category(chr(c)); g = gcb(c)
    if c == 0xAD or (k == 'Cf' and g == 'GPrepend'): return 1
    if g in ('GV', 'GT'): return 0
    if k in ('Mn', 'Me', 'Mc', 'Cc', 'Cf', 'Zl', 'Zp', 'Cs'): return 0
    if unicodedata.east_asian_width(chr(c)) in ('W', 'F') or c in RI: return 2
    return 1
def b(x): return 'true' if x else 'false'
def entry(c):
    mod = 0x1F3FB <= c <= 0x1F3FF
    emoji = c in extpic or c in RI or mod or 0x30 <= c <= 0x39
    pres = c in emoji_pres or c in RI or mod
    return '(0x%X, 0x%X, mkProps %d %s %s %s %s %s %s %s %s %s %s)' % (c, c, width(c), gcb(c), incb(c), wb(c), b(c in extpic), b(c in virama),
        b(c in varbase), b(mod), b(emoji), b(pres), b(unicodedata.category(chr(c)) == 'Mc'))
used = set()
def L(s):
    for ch in s: used.add(ord(ch))
    return '[' + '; '.join('0x%X' % ord(c) for c in s) + ']%N'
def B(bs): return '[' + '; '.join('0x%02X' % x for x in bs) + ']%N'
def LL(l): return '[' + '; '.join(L(x) for x in l) + ']'

def unescape(lit):
    r = re.sub(r'\\U([0-9A-Fa-f]{8})', lambda m: chr(int(m.group(1), 16)), lit)
    return re.sub(r'\\u([0-9A-Fa-f]{4})', lambda m: chr(int(m.group(1), 16)), r)

files = {}
# ---------------------------------------------------------------------------------------------- grapheme_segmenter_test.cpp
fp = '\U0001F926\U0001F3FC\u200D\u2642\uFE0F'
de = '\U0001F1E9\U0001F1E9'
G = [  # (lines, clusters)
 ('23-39', ['a', 'b', '!', '.']), ('41-48', ['g\u0308']), ('50-57', ['\U0001F441\uFE0F\u200D\U0001F5E8\uFE0F']),
 ('59-66', ['\U0001F468\u200D\U0001F9B0']), ('68-72', ['\U0001F468\u200D\U0001F469\u200D\U0001F467']), ('74-81', [fp]),
 ('85-93', ['\U0001F6D1\u200D\U0001F6D1']), ('95-103', ['\U0001F6D1\u0308\u200D\U0001F6D1']), ('105-116', ['\u200D', '\u00A9']),
 ('118-129', ['a\u200D', '\U0001F6D1']), ('131-145', ['\U0001F6D1', 'a\u200D', '\U0001F6D1']), ('157-181', ['X', fp, '5']),
 ('183-207', [de, de, '\U0001F1EF\U0001F1F5']), ('209-238', [de, de, '\U0001F1EF', 'P']), ('240-274', [de, de, 'Q', '\U0001F1EF', 'P']),
 ('278-285', ['\u0915\u094D\u0924']), ('287-294', ['\u0915\u094D\u0924\u094D\u092F']), ('296-303', ['\u0915\u093C\u200D\u094D\u0924']),
 ('305-312', ['\u0915\u094D\u094D\u0924']), ('314-321', ['\u0915\u094D\u200D\u0924']), ('323-334', ['a\u094D', '\u0924']),
 ('336-346', ['\u0915', '\u0924']), ('348-359', ['\u0915\u094D', 'a']), ('361-368', ['\u1019\u1039\u1018']),
 ('370-377', ['\u179F\u17D2\u178F\u17D2\u179A']), ('379-386', ['\u0AB8\u0AFB\u0ACD\u0AB8\u0AFB']) ]
t = []
for lines, cl in G:
    t.append('(** grapheme_segmenter_test.cpp:%s *)\nExample graphemes_%s : grapheme_clusters rt %s = Ok %s.\nProof. vm_compute. reflexivity. Qed.' %
             (lines, lines.split('-')[0], L(''.join(cl)), LL(cl)))
t.append('''(** grapheme_segmenter_test.cpp:177-180, 203-206, ...: incrementing beyond the end gives the empty cluster *)
Example graphemes_beyond : let s := seg_next rt (seg_next rt (seg_make rt %s)) in seg_value s = [] /\\ seg_available s = false.
Proof. vm_compute. split; reflexivity. Qed.''' % L('X' + 'P'))
# utf8_grapheme_segmenter_test.cpp
U = [('67-77', []), ('81', ['Y', 'e', 's']), ('82', ['\u251C', '\u2500']), ('83', ['\u251C', '\u2500', ' ', 'Y', 'e', 's']), ('84', ['X', fp, '5'])]
for lines, cl in U:
    t.append('(** utf8_grapheme_segmenter_test.cpp:%s *)\nExample utf8_graphemes_%s : u8_grapheme_clusters rt (to_utf8 %s) = Ok %s.\nProof. vm_compute. reflexivity. Qed.' %
             (lines, lines.split('-')[0], L(''.join(cl)), LL(cl)))
# word_segmenter_test.cpp
W = [('227-231', ['Hello', ' ', 'World']), ('236-247', ['Hello', ',', ' ', 'World', '!']), ('249-256', ["don't"]), ('258-265', ['3.14']),
     ('267-275', ['a', '\r\n', 'b']), ('277-285', ['a', '\n', 'b']), ('287-293', ['12345']), ('295-301', ['abc123def']),
     ('303-310', ['\u30AB\u30BF\u30CA']), ('312-319', ['hello_world']), ('321-329', ['a', '   ', 'b']), ('331-338', ['\U0001F1FA\U0001F1F8']),
     ('340-347', ['\U0001F1FA\U0001F1F8', '\U0001F1EC']), ('349-357', ['a\u0308b']), ('359-366', ["\u05D0'"]), ('368-375', ['\u05D0"\u05D1']),
     ('377-384', ['\U0001F468\u200D\U0001F469']), ('386-392', ['abc']), ('394-399', ['a'])]
for lines, cl in W:
    t.append('(** word_segmenter_test.cpp:%s *)\nExample words_%s : word_segments rt %s = Ok %s.\nProof. vm_compute. reflexivity. Qed.' %
             (lines, lines.split('-')[0], L(''.join(cl)), LL(cl)))
files['Replay_Segment'] = ('M_Ucd Ucd_Demo M_Utf8 M_Grapheme M_Utf8Grapheme M_Word Replay_Table',
   'grapheme_segmenter_test.cpp, utf8_grapheme_segmenter_test.cpp and the manual tests of word_segmenter_test.cpp', t)

# ---------------------------------------------------------------------------------------------- width_test.cpp
t = []
src = open(repo + 'width_test.cpp', encoding='utf8').read().split('\n')
n = 0
for no, line in enumerate(src, 1):
    m = re.search(r'grapheme_cluster_width\(U"(.*?)"sv\) == (\d+)\)', line) or re.search(r'Case \{ U"(.*?)"sv, (\d+),', line)
    if m:
        s = unescape(m.group(1))
        t.append('(** width_test.cpp:%d *)\nExample width_%d : cluster_width rt %s = %s.\nProof. vm_compute. reflexivity. Qed.' % (no, no, L(s), m.group(2)))
        n += 1
for no, line in enumerate(src, 1):
    m = re.search(r'CHECK\(unicode::width\(U\'(.*?)\'\) == (\d)\)', line)
    if m:
        c = unescape(m.group(1)); used.add(ord(c))
assert n > 60, n
for no, s, w in [(372, 'Hello', 5), (375, 'a\u4e2d\u6587', 5), (379, 'A\u261D\uFE0F', 3)]:
    t.append('(** width_test.cpp:%d, every vector unit *)\nExample width_%d : Forall (fun i => utf8_width i rt %s = Ok %d) impls.\nProof. repeat (apply Forall_cons; [vm_compute; reflexivity|]). apply Forall_nil. Qed.' %
             (no, no, B(s.encode()), w)); L(s)
files['Replay_Width'] = ('M_Ucd Ucd_Demo M_Utf8 M_Convert M_Grapheme M_Width Replay_Table', 'width_test.cpp', t)

# ---------------------------------------------------------------------------------------------- scan_test.cpp
t = []
d16 = '0123456789ABCDEF'
A = []
for mx in (0, 1): A.append((105 + mx, '', mx, 0))
for no, k, ms in [(109, 2, (32, 16, 8, 1)), (118, 4, (64, 32, 16, 8, 1)), (129, 8, (128, 64, 32, 16, 8, 1))]:
    for i, mx in enumerate(ms): A.append((no + i, d16 * k, mx, mx))
A += [(145, '\0331234', 80, 0), (146, '1234\033', 80, 4), (147, '12345678\033', 80, 8), (148, d16 + '\033', 80, 16), (149, d16 + '1\033', 80, 17),
      (154, d16 + '0\033123456789ABCDEF' + d16 * 6, 80, 17), (159, d16 * 7 + '\033' + d16, 128, 112), (164, '1234\x80', 80, 4)]
for i, (no, s, mx, w) in enumerate(A):
    t.append('(** scan_test.cpp:%d, every vector unit, plain char signed or not *)\nExample ascii_%d : Forall (fun i => Forall (fun uc => scan_for_text_ascii false uc i %s %d = Ok %d%%nat) [true; false]) impls.\nProof. repeat (apply Forall_cons; [repeat (apply Forall_cons; [vm_compute; reflexivity|]); apply Forall_nil|]). apply Forall_nil. Qed.' %
             (no, i, B(s.encode('latin1')), mx, w))
for i, (no, s) in enumerate([(165, b'0123456789{\xE2\x94\x80}ABCDEF'), (170, b'0123456789{\xE2\x94\x80}ABCDEF0323456789ABCDEF' + d16.encode() * 6)]):
    t.append('(** scan_test.cpp:%d *)\nExample ascii_complex_%d : Forall (fun i => Forall (fun uc => scan_for_text_ascii false uc i %s 80 = Ok 11%%nat) [true; false]) impls.\nProof. repeat (apply Forall_cons; [repeat (apply Forall_cons; [vm_compute; reflexivity|]); apply Forall_nil|]). apply Forall_nil. Qed.' % (no, i, B(s)))

fam = '\U0001F468\u200D\U0001F469\u200D\U0001F467\u200D\U0001F466'
smile = '\U0001F600'
def na(no, s, mx, cnt, nxt):
    L(s)
    t.append('(** scan_test.cpp:%d *)\nExample nonascii_%d_%d : let \'((c, _, _), st, _) := nonascii rt (sstate0 rt) 0 %s %d [] in c = %d /\\ s_next st = Some %d.\nProof. vm_compute. split; reflexivity. Qed.' %
             (no, no, mx, B(s.encode()), mx, cnt, nxt))
na(174, fam, 80, 2, len(fam.encode())); na(183, fam * 2, 80, 4, 2 * len(fam.encode())); na(192, fam + 'ABC' + fam, 80, 2, len(fam.encode()))
na(201, smile * 3, 2, 2, 4)
# half-overflowing reuses the state
t.append('''(** scan_test.cpp:201-222: the same state is used for all three calls *)
Example nonascii_half : let x := %s in
  let '((c2, _, _), st2, _) := nonascii rt (sstate0 rt) 0 x 2 [] in let '((c3, _, _), st3, _) := nonascii rt st2 0 x 3 [] in
  let '((c4, _, _), st4, _) := nonascii rt st3 0 x 4 [] in
  c2 = 2 /\\ s_next st2 = Some 4 /\\ c3 = 2 /\\ s_next st3 = Some 4 /\\ c4 = 4 /\\ s_next st4 = Some 8.
Proof. vm_compute. repeat split; reflexivity. Qed.''' % B((smile * 3).encode()))

def scan(no, s, mx, checks, tag=''):
    raw = s if isinstance(s, bytes) else s.encode()
    if not isinstance(s, bytes): L(s)
    t.append('(** scan_test.cpp:%d *)\nExample scan_%d%s : Forall (fun i => exists r st ev, scan_text rt true i (sstate0 rt) %s %d = Ok (r, st, ev) /\\ %s) impls.\nProof. repeat (apply Forall_cons; [do 3 eexists; split; [vm_compute; reflexivity|vm_compute; repeat split; congruence]|]). apply Forall_nil. Qed.' %
             (no, no, tag, B(raw), mx, checks))
def cnt_next(c, n): return 'r_count r = %d /\\ s_next st = Some %d' % (c, n)
scan(224, 'X', 80, cnt_next(1, 1))
simple = d16 + '0123'
for i in range(1, 7):
    s = ''.join(simple if k % 2 else smile for k in range(1, i + 1))
    scan(264, s + '\r\n', 80, cnt_next(((i + 1) // 2) * 20 + (i // 2) * 2, len(s.encode())), '_%d' % i)
    s = ''.join(smile if k % 2 else simple for k in range(1, i + 1))
    scan(296, s + '\r\n', 80, cnt_next((i // 2) * 20 + ((i + 1) // 2) * 2, len(s.encode())), '_%d' % i)
scan(321, '\u00A9', 80, cnt_next(1, 2)); scan(328, '\u00A9\uFE0F', 80, cnt_next(2, 5)); scan(334, '\u00A9\uFE0F', 1, cnt_next(0, 0))
# scan.width_agrees_with_grapheme_cluster_width
agree = ['\u0915\u093E', '\u0915\u094D\u0928', '\u0E01\u0E33', '\u0EA0\u0EB3', '\u1780\u17D2\u179A', '\u00A9\uFE0F', '\u2713\uFE0F', '\u231A\uFE0E',
         '\u6F22\uFE0E', '\u2764\U0001F3FB', '\u2764\u200D\U0001F525', '\U0001F1E9\U0001F1EA', '\u4E2D\u00E9', '\u4E2D\u00E9\u00E9', '\U0001F600\u00E9',
         '\u4E2D\u03B1', '\u2764\u200DA']
for k, s in enumerate(agree):
    scan(338, s, 80, 'utf8_width i rt %s = Ok (r_count r)' % B(s.encode()), '_%d' % k)
scan(401, '\u4E2D\u0915\u093Eab', 3, 'r_start r <= r_end r /\\ r_end r <= 3 /\\ r_count r = 2 /\\ r_end r = 3 /\\ s_next st = Some 3')
for k, (s, w) in enumerate([('a\u0903', 2), ('a\u0BBE', 2), ('ab\u0903', 3), ('abc', 3), ('ab\u4E2D', 4)]):
    scan(422, s, 80, 'r_count r = %d /\\ utf8_width i rt %s = Ok %d' % (w, B(s.encode()), w), '_%d' % k)
for k, (s, w) in enumerate([('e\u0301x', 2), ('e\u0301', 1), ('abc\u0301d', 4), ('e\uFE0F', 1), ('1\uFE0F', 2)]):
    scan(453, s, 80, 'r_count r = %d /\\ Some (r_end r) = s_next st /\\ s_next st = Some %d' % (w, len(s.encode())), '_%d' % k)
for k, s in enumerate(['e\u0301x', 'a\u0903', 'abc', '\u4E2D\u00E9\u00E9', 'a\u4E2Db', 'e\u0301e\u0301', 'a\u200Db', '\u231A\uFE0Ex', fam, 'a\U0001F1E9\U0001F1EAb']):
    scan(491, s, 80, 'd_exp (s_utf8 st) = 0%N /\\ r_start r <= r_end r /\\ Some (r_end r) = s_next st', '_%d' % k)
scan(551, '\u4E2D\u00E9', 80, 'r_count r = 3 /\\ ev = [ECluster 0 3 2; ECluster 3 5 1]')
scan(571, b'ab\x96cd', 80, 'r_count r = 2 /\\ r_end r = 2 /\\ s_next st = Some 2')
scan(587, '\u2018\n', 80, 'r_count r = 1 /\\ s_next st = Some 3')
t.append('''(** scan_test.cpp:235-262: a character split over two buffers; offsets of the second result are relative to the second buffer, which starts
    at byte 3, so -3 is byte 0 and 1 is byte 4 *)
Example sliced_calls : Forall (fun i => exists r st ev r2 st2 ev2,
  scan_text rt true i (sstate0 rt) [0xF0; 0x9F; 0x98]%%N 80 = Ok (r, st, ev) /\\ d_exp (s_utf8 st) = 4%%N /\\ d_cur (s_utf8 st) = 3%%N /\\
  r_count r = 0 /\\ r_start r = 0 /\\ r_end r = 0 /\\ s_next st = Some 3 /\\
  scan_text rt true i (next_buffer st) %s 80 = Ok (r2, st2, ev2) /\\ d_exp (s_utf8 st2) = 0%%N /\\ r_count r2 = 2 /\\ r_start r2 = -3 /\\ r_end r2 = 1 /\\
  s_next st2 = Some 1) impls.
Proof. repeat (apply Forall_cons; [do 6 eexists; split; [vm_compute; reflexivity|]; do 6 (split; [vm_compute; reflexivity|]); split; [vm_compute; reflexivity|]; vm_compute; repeat split; reflexivity|]). apply Forall_nil. Qed.''' % B(b'\x80\x1b\\0123456789ABCDEF'))
t.append('''(** scan_test.cpp:379-399: a cluster split over two buffers *)
Example split_cluster : Forall (fun i => exists r st ev r2 st2 ev2,
  scan_text rt true i (sstate0 rt) %s 80 = Ok (r, st, ev) /\\ scan_text rt true i (next_buffer st) %s 80 = Ok (r2, st2, ev2) /\\
  r_count r + r_count r2 = 2 /\\ utf8_width i rt %s = Ok 2 /\\ s_next st2 = Some 3) impls.
Proof. repeat (apply Forall_cons; [do 6 eexists; split; [vm_compute; reflexivity|]; split; [vm_compute; reflexivity|]; vm_compute; repeat split; reflexivity|]). apply Forall_nil. Qed.''' % (B('\u00A9'.encode()), B('\uFE0F'.encode()), B('\u00A9\uFE0F'.encode())))
files['Replay_Scan'] = ('M_Ucd Ucd_Demo M_Utf8 M_Convert M_AsciiScan M_Grapheme M_Width M_Scan Spec_Scan Replay_Table', 'scan_test.cpp', t)

# ---------------------------------------------------------------------------------------------- convert_test.cpp, utf8_test.cpp, capi_test.cpp
t = []
def U16(s):
    r = []
    for ch in s:
        c = ord(ch)
        if c < 0x10000: r.append(c)
        else: r += [0xD800 + ((c - 0x10000) >> 10), 0xDC00 + ((c - 0x10000) & 0x3FF)]
    return '[' + '; '.join('0x%X' % x for x in r) + ']%N'
def L_(s): return '[' + '; '.join('0x%X' % ord(c) for c in s) + ']%N'
def ex(name, src, stmt):
    t.append('(** %s *)\nExample %s : %s.\nProof. vm_compute. repeat split; reflexivity. Qed.' % (src, name, stmt))
def all_i(name, src, body):
    t.append('(** %s, every vector unit *)\nExample %s : Forall (fun i => %s) impls.\nProof. repeat (apply Forall_cons; [vm_compute; repeat split; reflexivity|]). apply Forall_nil. Qed.' % (src, name, body))
hello = 'Hello, \U0001F600'
ex('convert_same', 'convert_test.cpp:27-43', 'convert_it T8 T8 %s = Ok %s /\\ convert_it T16 T16 %s = Ok %s /\\ convert_it T32 T32 %s = Ok %s' %
   (B(hello.encode()), B(hello.encode()), U16(hello), U16(hello), L_(hello), L_(hello)))
s = '[\u00f6\u20ac\U0001F600'
R = {'T8': B(s.encode()), 'T16': U16(s), 'T32': L_(s)}
for no, a, b_ in [(45, 'T8', 'T16'), (60, 'T8', 'T32'), (75, 'T16', 'T8'), (84, 'T16', 'T32'), (93, 'T32', 'T8'), (102, 'T32', 'T16')]:
    ex('convert_%d' % no, 'convert_test.cpp:%d' % no, 'convert_it %s %s %s = Ok %s' % (b_, a, R[a], R[b_]))
    all_i('convert_to_%d' % no, 'convert_test.cpp:%d, string-returning overload' % no, 'convert_to false i %s %s %s = Ok %s' % (b_, a, R[a], R[b_]))
for k, c in enumerate(['\U00010000', '\U0010FFFF', '\U0001F600']):
    ex('surrogates_%d' % k, 'convert_test.cpp:111-159', 'convert_it T16 T32 %s = Ok %s /\\ convert_it T32 T16 %s = Ok %s' % (L_(c), U16(c), U16(c), L_(c)))
ex('bad_surrogates', 'convert_test.cpp:161-189', 'convert_it T32 T16 [0xD800; 0x41]%N = Ok [] /\\ convert_it T32 T16 [0xDC00]%N = Ok [] /\\ convert_it T16 T32 [0xD800]%N = Ok []')
t.append('''(** convert_test.cpp:193-217, every vector unit *)
Example ascii_lengths : Forall (fun i => map (fun n => (convert_to false i T32 T8 (repeat 0x41%N n), convert_to false i T16 T8 (repeat 0x42%N n)))
    [0; 1; 7; 15; 16; 17; 31; 32; 33; 63; 64; 65; 127; 128; 255; 256; 1000]%nat =
  map (fun n => (Ok (repeat 0x41%N n), Ok (repeat 0x42%N n))) [0; 1; 7; 15; 16; 17; 31; 32; 33; 63; 64; 65; 127; 128; 255; 256; 1000]%nat) impls.
Proof. repeat (apply Forall_cons; [vm_compute; reflexivity|]). apply Forall_nil. Qed.''')
for k, (n, ch, c) in enumerate([(16, 'x', '\u00F6'), (32, 'y', '\u20AC'), (64, 'z', '\U0001F600')]):
    all_i('ascii_then_%d' % k, 'convert_test.cpp:219-243', 'convert_to false i T32 T8 (repeat 0x%X%%N %d ++ %s) = Ok (repeat 0x%X%%N %d ++ %s)' % (ord(ch), n, B(c.encode()), ord(ch), n, L_(c)))
all_i('ascii_then_pair', 'convert_test.cpp:245-255', 'convert_to false i T16 T8 (repeat 0x77%%N 32 ++ %s) = Ok (repeat 0x77%%N 32 ++ [0xD83D; 0xDE00]%%N)' % B('\U0001F600'.encode()))
for k, c in enumerate(['\u00f6\u00fc\u00e4', '\u4e2d\u6587', '\U0001F600\U0001F602']):
    all_i('non_ascii_%d' % k, 'convert_test.cpp:257-278', 'convert_to false i T32 T8 %s = Ok %s' % (B(c.encode()), L_(c)))
c = 'A' * 20 + '\U0001F600' + 'B' * 20 + '\U0001F602' + 'C' * 20
all_i('interleaved', 'convert_test.cpp:280-289', 'convert_to false i T32 T8 %s = Ok %s' % (B(c.encode()), L_(c)))
c = 'Hello \u00f6 World \u20ac \U0001F600 end'
all_i('roundtrip', 'convert_test.cpp:291-306', '(do x <- convert_to false i T32 T8 %s ; convert_to false i T8 T32 x) = Ok %s /\\ (do x <- convert_to false i T16 T8 %s ; convert_to false i T8 T16 x) = Ok %s' % ((B(c.encode()),) * 4))
c = 'ABCDEFGHIJKLMNOP\u00f6\u20ac\U0001F600 tail'
all_i('consistency', 'convert_test.cpp:308-315', 'convert_to false i T32 T8 %s = Ok (successes (snd (from_utf8_run dinit %s)))' % ((B(c.encode()),) * 2))
c = ''.join(chr(x) for x in range(0x20, 0x7F))
all_i('printable', 'convert_test.cpp:317-335', 'convert_to false i T32 T8 %s = Ok %s' % (B(c.encode()), L_(c)))
ex('incremental', 'convert_test.cpp:338-380', 'snd (decoder_run dinit %s) = %s' % (B(s.encode()), L_(s)))
ex('bytes_1', 'utf8_test.cpp:41-58', "to_utf8_char 0x5B = [0x5B]%N /\\ snd (from_utf8 dinit 0x5B) = Success 0x5B")
ex('bytes_2', 'utf8_test.cpp:60-81', 'to_utf8_char 0xF6 = [0xC3; 0xB6]%N /\\ from_utf8_buf [0xC3; 0xB6]%N = Ok (Success 0xF6, 2%N, 2%nat)')
ex('bytes_3', 'utf8_test.cpp:83-103', 'to_utf8_char 0x20AC = [0xE2; 0x82; 0xAC]%N /\\ from_utf8_buf [0xE2; 0x82; 0xAC; 0]%N = Ok (Success 0x20AC, 3%N, 3%nat)')
ex('bytes_3_dash', 'utf8_test.cpp:105-127', 'to_utf8_char 0x251C = [0xE2; 0x94; 0x9C]%N /\\ from_utf8_buf [0xE2; 0x94; 0x9C; 0x61]%N = Ok (Success 0x251C, 3%N, 3%nat)')
for k, c in enumerate(['Hello, World!', '\U0001F616:-)']):
    ex('from_utf8_%d' % k, 'utf8_test.cpp:129-138', 'successes (snd (from_utf8_run dinit %s)) = %s' % (B(c.encode()), L_(c)))
ex('from_utf8_invalid', 'utf8_test.cpp:140-146', 'successes (snd (from_utf8_run dinit [0x48; 0x69; 0xB1; 0x48; 0x6F]%N)) = [0x48; 0x69; 0x48; 0x6F]%N')
ex('incomplete_2', 'utf8_test.cpp:148-164', 'snd (from_utf8_run dinit [0xC7; 0xC7; 0x8E]%N) = [Incomplete; Invalid; Success 0x1CE]')
ex('incomplete_3', 'utf8_test.cpp:166-186', 'snd (from_utf8_run dinit [0xE2; 0x82; 0xE2; 0x82; 0xAC]%N) = [Incomplete; Incomplete; Invalid; Incomplete; Success 0x20AC]')
ex('incomplete_4', 'utf8_test.cpp:188-217', 'snd (from_utf8_run dinit [0xF0; 0x9F; 0x8D; 0xF0; 0x9F; 0x8D; 0xA3]%N) = [Incomplete; Incomplete; Incomplete; Invalid; Incomplete; Incomplete; Success 0x1F363]')
ex('iter', 'utf8_test.cpp:219-261', 'snd (from_utf8_run dinit %s) = [Success 0x5B; Incomplete; Success 0xF6; Incomplete; Incomplete; Success 0x20AC; Incomplete; Incomplete; Incomplete; Success 0x1F600]' % B(s.encode()))
for k, (c, n) in enumerate([('', 0), ('\U0001F600\uFE0E', 1), ('\U0001F600\uFE0E\U0001F600', 2), ('Yeo', 3), ('Hi \U0001F600\uFE0E', 4), ('1234', 4), ('\U0001F468\U0001F3FE\u200D\U0001F9B3', 1)]):
    used.update(map(ord, c)); extpic.add(0x1F9B3); emoji_pres.add(0x1F9B3)
    ex('gc_count_%d' % k, 'capi_test.cpp:25-34', 'u32_gc_count rt %s = Ok %d' % (L_(c), n))
ex('stream_convert', 'capi_test.cpp:36-58', 'snd (stream_chunk dinit %s) = %s /\\ u32u8_convert %s (repeat 0%%N 32) = Ok (10, %s ++ repeat 0%%N 22)' % (B(s.encode()), L_(s), L_(s), B(s.encode())))
files['Replay_Convert'] = ('Spec_Utf M_Ucd M_Utf8 M_Convert M_CApi Replay_Table', 'convert_test.cpp, utf8_test.cpp and capi_test.cpp', t)

# ---------------------------------------------------------------------------------------------- emoji, script and run segmenter
t = []
modbase = {0x270C, 0x1F926, 0x26F9, 0x270A, 0x270D, 0x1F466, 0x1F467, 0x1F468, 0x1F469}
pres2 = {0x1F331, 0x1F332, 0x1F333, 0x1F334, 0x1F48B, 0x1F600, 0x231A, 0x270A}
textpres = {0x2642, 0x2764, 0x2626, 0x262A, 0x2638, 0x271D, 0x2721}
def ecat(c):
    if c == 0x20E3: return 'EKeycap'
    if c == 0x20E0: return 'EBackslash'
    if c == 0x200D: return 'EZwj'
    if c == 0xFE0E: return 'EVs15'
    if c == 0xFE0F: return 'EVs16'
    if c == 0x1F3F4: return 'ETagBase'
    if 0xE0030 <= c <= 0xE0039 or 0xE0061 <= c <= 0xE007A: return 'ETagSeq'
    if c == 0xE007F: return 'ETagTerm'
    if c in modbase: return 'EModBase'
    if 0x1F3FB <= c <= 0x1F3FF: return 'EModifier'
    if c in RI: return 'ERegional'
    if 0x30 <= c <= 0x39 or c in (0x23, 0x2A): return 'EKeycapBase'
    if c in pres2: return 'EEmojiPres'
    if c in textpres: return 'ETextPres'
    return 'EInvalid'
eused = set()
def EL(s): eused.update(map(ord, s)); return L_(s)
E_ = [(71, [('\U0001F600', 1)]), (76, [('\U0001F600\uFE0E', 0)]), (81, [('AB', 0), ('\U0001F600', 1)]), (86, [('\U0001F600', 1), ('A', 0)]),
      (95, [('\U0001F600\U0001F600', 1)]), (103, [('AB ', 0), ('\U0001F600', 1)]), (112, [('\u270c\ufe0e', 0)]),
      (120, [('\u270c', 1), ('\u270c\ufe0e', 0), ('\u270c', 1)]),
      (130, [('Hello(', 0), ('\u270c\U0001F926\U0001F3FC\u200D\u2642\uFE0F', 1), ('\u270c\ufe0e :-)', 0), ('\u270c', 1), (')\u5408!', 0)])]
for no, segs in E_:
    full = ''.join(x for x, _ in segs); pos = 0; exp = []
    for x, e in segs: pos += len(x); exp.append('(%d%%nat, %s)' % (pos, b(e)))
    t.append('(** emoji_segmenter_test.cpp:%d *)\nExample emoji_%d : (do s <- eseg_new (map rcat %s) ; eseg_all 40 40 s) = Ok [%s].\nProof. vm_compute. reflexivity. Qed.' % (no, no, EL(full), '; '.join(exp)))
# script.  Numbers: 0 Invalid, 1 Common, 2 Inherited (M_Script), any others
SC = {'Invalid': 0, 'Common': 1, 'Inherited': 2, 'Unknown': 3, 'Latin': 4, 'Greek': 5, 'Han': 6, 'Arabic': 7, 'Hangul': 8, 'Devanagari': 9, 'Hiragana': 10,
      'Armenian': 11, 'Cher': 12, 'Copt': 13, 'Cyrl': 14, 'Perm': 15, 'Sunu': 16, 'Tale': 17, 'Osge': 18, 'Todr': 19, 'Tfng': 20, 'Aghb': 21, 'Goth': 22,
      'Syrc': 23, 'Dupl': 24, 'Hebr': 25, 'Bengali': 26}
SX = {0x300: 'Cher Copt Cyrl Greek Latin Perm Sunu Tale', 0x301: 'Cher Cyrl Greek Latin Osge Sunu Tale Todr', 0x302: 'Cher Cyrl Latin Tfng',
      0x304: 'Aghb Cher Copt Cyrl Goth Greek Latin Osge Syrc Tfng Todr', 0x308: 'Armenian Cyrl Dupl Goth Greek Hebr Latin Perm Syrc Tale', 0x30A: 'Dupl Latin Syrc'}
def script(c):
    k = unicodedata.category(chr(c))
    if k == 'Co': return 'Unknown'
    if k in ('Mn', 'Me') and (0x300 <= c <= 0x36F or 0xFE00 <= c <= 0xFE0F) or c == 0x200D: return 'Inherited'
    if 0x41 <= c <= 0x5A or 0x61 <= c <= 0x7A: return 'Latin'
    for lo, hi, n in [(0x370, 0x3FF, 'Greek'), (0x531, 0x587, 'Armenian'), (0x620, 0x64A, 'Arabic'), (0x900, 0x963, 'Devanagari'), (0x3041, 0x3096, 'Hiragana'),
                      (0x4E00, 0x9FFF, 'Han'), (0xAC00, 0xD7A3, 'Hangul')]:
        if lo <= c <= hi: return n
    return 'Common'
S_ = [(22, [('\uE0B0', 'Unknown')]), (34, [('1a', 'Latin')]), (51, [('\u03bb ', 'Greek'), ('\u5408\u6c17\u9053 ', 'Han'), ('\u03bb;', 'Greek')]), (82, [('AB ', 'Latin'), ('\u03bb;', 'Greek')])]
for no, segs in S_:
    full = ''.join(x for x, _ in segs); pos = 0; exp = []
    for x, e in segs: pos += len(x); exp.append('(%d%%N, %d%%nat)' % (SC[e], pos))
    t.append('(** script_segmenter_test.cpp:%d *)\nExample script_%d : script_runs rscripts 40 (sseg_new %s) = Ok [%s].\nProof. vm_compute. reflexivity. Qed.' % (no, no, EL(full), '; '.join(exp)))
kiss = '\uD0A4\uC2A4\uC758'
R_ = [(71, []), (83, [('\U0001F600\uFE0E', 'Common', 0)]), (91, [('A', 'Latin', 0), ('\U0001F600', 'Latin', 1)]), (100, [('A ', 'Latin', 0), ('\U0001F600', 'Latin', 1)]),
      (109, [('AB', 'Latin', 0), ('\U0001F600', 'Latin', 1), ('CD', 'Latin', 0)]), (119, [('Abc.;?Xyz', 'Latin', 0)]), (124, [(' ', 'Common', 0)]),
      (129, [('\u0646\u0635', 'Arabic', 0), (kiss, 'Hangul', 0)]),
      (135, [('\u767e\u5bb6\u59d3', 'Han', 0), ('\u090b\u0937\u093f\u092f\u094b\u0902', 'Devanagari', 0), ('\U0001F331\U0001F332\U0001F333\U0001F334', 'Devanagari', 1),
             ('\u767e\u5bb6\u59d3', 'Han', 0), ('\U0001F331\U0001F332', 'Han', 1)]),
      (145, [('\u25cc\u0301\u25cc\u0300\u25cc\u0308\u25cc\u0302\u25cc\u0304\u25cc\u030a', 'Latin', 0)]), (169, [('\u2300\u2301\u2302', 'Common', 0)]),
      (177, [('.\u2026\u00a1', 'Common', 0)]), (192, [('\u3044\u308d\u306f\u306b.\u2026\u00a1\u307b\u3078\u3068', 'Hiragana', 0)]), (200, [('\u0915+\u0947', 'Devanagari', 0)]),
      (208, [('\U0001F469\u200D\U0001F469\u200D\U0001F467\u200D\U0001F466\U0001F469\u200D\u2764\uFE0F\u200D\U0001F48B\u200D\U0001F468', 'Latin', 1), ('abcd', 'Latin', 0),
             ('\U0001F469\u200D\U0001F469', 'Latin', 1), ('\u200D\u200Defg', 'Latin', 0)]),
      (239, [('\u26F9\U0001F3FB\u270D\U0001F3FB\u270A\U0001F3FC', 'Common', 1)]),
      (244, [('\u0561\u0562\u0563', 'Armenian', 0), ('\u03b1\u03b2\u03b3', 'Greek', 0), ('\u0531\u0532\u0533', 'Armenian', 0)]),
      (252, [('\U0001F3F4\U000E0067\U000E0062\U000E0077\U000E006C\U000E0073\U000E007F\U0001F3F4\U000E0067\U000E0062\U000E0073\U000E0063\U000E0074\U000E007F'
              '\U0001F3F4\U000E0067\U000E0062\U000E0065\U000E006E\U000E0067\U000E007F', 'Common', 1)]),
      (261, [('\u2626\u262a\u2638\u271d\u2721\u2627\u2628\u2629\u262b\u262c\u2670\u2671\u271f\u2720', 'Common', 0)])]
rt_ = []
for no, segs in R_:
    full = ''.join(x[0] for x in segs); pos = 0; exp = []
    for x, sc, e in segs: exp.append('(%d%%nat, %d%%nat, [PScript %d; PEmoji %s])' % (pos, pos + len(x), SC[sc], b(e))); pos += len(x)
    t.append('(** run_segmenter_test.cpp:%d *)\nExample runs_%d : run_segments rscripts rcat 60 60 60 %s = Ok [%s].\nProof. vm_compute. reflexivity. Qed.' % (no, no, EL(full), '; '.join(exp)))
head = ['(** EmojiSegmentationCategory of the code points used (multistage_generator.cpp:180-215 applied to the UCD) *)\nDefinition rcat (c : N) : ecat :=\n  match c with\n' +
        '\n'.join('  | 0x%X => %s' % (c, ecat(c)) for c in sorted(eused) if ecat(c) != 'EInvalid') + '\n  | _ => EInvalid\n  end%N.',
        '(** Script and Script_Extensions of the code points used *)\nDefinition rscripts : script_tables := mkScripts (fun c => match c with\n' +
        '\n'.join('  | 0x%X => %d' % (c, SC[script(c)]) for c in sorted(eused) if script(c) != 'Common') + '\n  | _ => 1\n  end%N)\n  (fun c => match c with\n' +
        '\n'.join('  | 0x%X => Some [%s]' % (c, '; '.join(str(SC[x]) for x in v.split())) for c, v in sorted(SX.items())) + '\n  | _ => None\n  end%N).']
files['Replay_Runs'] = ('M_Emoji M_Script M_Run', 'emoji_segmenter_test.cpp, script_segmenter_test.cpp and run_segmenter_test.cpp', head + t)

# ---------------------------------------------------------------------------------------------- normalization_test.cpp
t = ['''(** The UCD entries of the code points used. *)
Definition rnorm : norm_tables := {|
  t_ccc := [(0x300, 230); (0x301, 230); (0x303, 230); (0x308, 230); (0x327, 202); (0x328, 202)];
  t_canon := [(0xE9, [0x65; 0x301]); (0xEF, [0x69; 0x308]); (0xF1, [0x6E; 0x303])];
  t_compat := [(0xB2, [0x32]); (0xFB01, [0x66; 0x69]); (0xFF21, [0x41])];
  t_comp := [(0x65, 0x301, 0xE9); (0x69, 0x308, 0xEF); (0x6E, 0x303, 0xF1)];
  t_excl := [0x958]; t_nfc_no := [0x340; 0x344; 0x958]; t_nfc_maybe := [0x300; 0x301; 0x303; 0x308; 0x327; 0x328] ++ nrange 0x1161 21 ++ nrange 0x11A8 27;
  t_nfkc_no := [0xB2; 0x340; 0x344; 0x958; 0xFB01; 0xFF21]; t_nfkc_maybe := [0x300; 0x301; 0x303; 0x308; 0x327; 0x328] ++ nrange 0x1161 21 ++ nrange 0x11A8 27;
  t_nfd_no := [0xE9; 0xEF; 0xF1] ++ nrange 0xAC00 11172; t_nfkd_no := [0xB2; 0xE9; 0xEF; 0xF1] ++ nrange 0xAC00 11172 ++ [0xFB01; 0xFF21] |}%N.
Notation "f ~ x => y" := (normalize rnorm 10 x f = Ok y) (at level 70, x at next level).''']
def nt(no, stmt):
    t.append('(** normalization_test.cpp:%d *)\nExample norm_%d : %s.\nProof. vm_compute. repeat split; reflexivity. Qed.' % (no, no, stmt))
N_ = L_
nt(21, 'map (canonical_combining_class rnorm) [0x41; 0x61; 0x20; 0x300; 0x301; 0x327; 0x328]%N = [0; 0; 0; 230; 230; 202; 202]%N')
nt(35, 'is_hangul_syllable 0xAC00 = true /\\ is_hangul_syllable 0x41 = false /\\ is_hangul_syllable 0x1100 = false /\\ is_hangul_l_jamo 0x1100 = true /\\ is_hangul_v_jamo 0x1161 = true /\\ is_hangul_t_jamo 0x11A8 = true')
nt(47, 'hangul_decompose 0xAC00 = [0x1100; 0x1161]%N /\\ hangul_decompose 0xAC01 = [0x1100; 0x1161; 0x11A8]%N')
nt(64, 'hangul_compose 0x1100 0x1161 0 = 0xAC00%N /\\ hangul_compose 0x1100 0x1161 0x11A8 = 0xAC01%N')
nt(73, 'canonical_decomposition rnorm 0xE9 = [0x65; 0x301]%N /\\ canonical_decomposition rnorm 0xF1 = [0x6E; 0x303]%N /\\ canonical_decomposition rnorm 0x41 = []')
def nf(no, f, prs): nt(no, ' /\\ '.join('%s ~ %s => %s' % (f, N_(x), N_(y)) for x, y in prs))
nf(92, 'NFD', [('\u00e9', 'e\u0301'), ('e\u0301', 'e\u0301'), ('hello', 'hello')])
nf(107, 'NFC', [('e\u0301', '\u00e9'), ('\u00e9', '\u00e9'), ('hello', 'hello')])
all_i('norm_122', 'normalization_test.cpp:122-136', 'normalize8 rnorm i 10 %s NFD = Ok %s /\\ normalize8 rnorm i 10 %s NFC = Ok %s' %
      (B('caf\u00e9'.encode()), B('cafe\u0301'.encode()), B('cafe\u0301'.encode()), B('caf\u00e9'.encode())))
nt(138, 'quick_check rnorm %s NFC = Yes /\\ quick_check rnorm %s NFD = Yes /\\ quick_check rnorm [0xE9]%%N NFC = Yes' % (N_('hello'), N_('hello')))
nt(149, 'is_normalized rnorm 10 %s NFC = Ok true /\\ is_normalized rnorm 10 %s NFD = Ok true /\\ is_normalized rnorm 10 [0xE9]%%N NFC = Ok true /\\ is_normalized rnorm 10 %s NFD = Ok true' % (N_('hello'), N_('hello'), N_('e\u0301')))
nt(162, 'is_canonically_equivalent rnorm 10 [0xE9]%%N %s = Ok true /\\ is_canonically_equivalent rnorm 10 %s %s = Ok true /\\ is_canonically_equivalent rnorm 10 %s %s = Ok false' %
   (N_('e\u0301'), N_('hello'), N_('hello'), N_('hello'), N_('world')))
all_i('norm_174', 'normalization_test.cpp:174-179', 'is_canonically_equivalent8 rnorm i 10 %s %s = Ok true /\\ is_canonically_equivalent8 rnorm i 10 %s %s = Ok false' % (B(b'hello'), B(b'hello'), B(b'hello'), B(b'world')))
nf(181, 'NFD', [('a\u0327\u0301', 'a\u0327\u0301'), ('a\u0301\u0327', 'a\u0327\u0301')])
nt(200, 'is_composition_exclusion rnorm 0x344 = false')
nf(225, 'NFKD', [('\ufb01', 'fi'), ('\u00b2', '2'), ('\uff21', 'A'), ('\u00e9', 'e\u0301'), ('hello', 'hello')])
nf(248, 'NFKC', [('\ufb01', 'fi'), ('\u00b2', '2'), ('\uff21', 'A'), ('\u00e9', '\u00e9'), ('e\u0301', '\u00e9'), ('hello', 'hello')])
nf(275, 'NFD', [('\ufb01', '\ufb01')])
nt(282, ' /\\ '.join('is_compatibility_equivalent rnorm 10 %s %s = Ok true' % (N_(x), N_(y)) for x, y in [('\ufb01', 'fi'), ('\u00b2', '2'), ('\uff21', 'A')]))
nt(293, 'nfd_quick_check rnorm 0xE9 = false /\\ nfd_quick_check rnorm 0x41 = true /\\ nfd_quick_check rnorm 0x301 = true')
nt(305, 'nfc_quick_check rnorm 0x301 = Maybe /\\ nfc_quick_check rnorm 0x41 = Yes')
nt(314, 'nfkd_quick_check rnorm 0xFB01 = false /\\ nfkd_quick_check rnorm 0xE9 = false /\\ nfkd_quick_check rnorm 0x41 = true')
nt(326, 'nfkc_quick_check rnorm 0xFB01 = No /\\ nfkc_quick_check rnorm 0x41 = Yes')
nt(335, 'map (quick_check rnorm [0xFB01]%N) [NFC; NFKC; NFD; NFKD] = [Yes; No; Yes; No]')
nt(370, 'nfeed rnorm 10 NFC [] 0x65 = Ok ([], [0x65]%N) /\\ nfeed rnorm 10 NFC [0x65]%N 0x301 = Ok ([], [0x65; 0x301]%N) /\\ nfeed rnorm 10 NFC [0x65; 0x301]%N 0x78 = Ok ([0xE9], [0x78])%N /\\ emit_pending rnorm 10 NFC [0x78]%N = Ok [0x78]%N')
nt(389, 'nfeed rnorm 10 NFD [] 0xE9 = Ok ([], [0xE9]%N) /\\ emit_pending rnorm 10 NFD [0xE9]%N = Ok [0x65; 0x301]%N')
nt(400, 'emit_pending rnorm 10 NFC [] = Ok []')
def st(no, f, x, y): nt(no, 'stream_normalize rnorm 10 %s %s = Ok %s' % (f, N_(x), N_(y)))
st(408, 'NFC', 'hello', 'hello'); st(423, 'NFD', '\u0301\u0327', '\u0327\u0301'); st(438, 'NFC', '\u1100\u1161', '\uac00'); st(484, 'NFC', 'cafe\u0301', 'caf\u00e9')
c = 'caf\u00e9 na\u00efve r\u00e9sum\u00e9'
nt(451, ' /\\ '.join('stream_normalize rnorm 10 %s %s = normalize rnorm 10 %s %s' % (f, N_(c), N_(c), f) for f in ('NFC', 'NFD', 'NFKC', 'NFKD')))
def ur(no, ops, exp): nt(no, '(do (o, _) <- urun rnorm 10 NFC unorm_init [%s] ; Ok (concat o)) = Ok %s' % ('; '.join(ops), exp))
ur(504, ['Feed ' + B(b'cafe\xCC\x81!'), 'Flush'], B(b'caf\xC3\xA9!'))
ur(516, ['Feed [0xC3]%N', 'Feed [0xA9]%N', 'Feed [0x78]%N', 'Flush'], B(b'\xC3\xA9x'))
nt(530, '(do (o, _) <- urun rnorm 10 NFC unorm_init [Feed %s; Reset; Flush] ; Ok (last o [0%%N])) = Ok []' % B(b'hello'))
V = [('\u00e9', '\u00e9', 'e\u0301', '\u00e9', 'e\u0301'), ('e\u0301', '\u00e9', 'e\u0301', '\u00e9', 'e\u0301'), ('\ufb01', '\ufb01', '\ufb01', 'fi', 'fi'),
     ('\uff21', '\uff21', '\uff21', 'A', 'A'), ('\u00b2', '\u00b2', '\u00b2', '2', '2'), ('\uac00', '\uac00', '\u1100\u1161', '\uac00', '\u1100\u1161'),
     ('\uac01', '\uac01', '\u1100\u1161\u11a8', '\uac01', '\u1100\u1161\u11a8'), ('\u1100\u1161', '\uac00', '\u1100\u1161', '\uac00', '\u1100\u1161'),
     ('\u1100\u1161\u11a8', '\uac01', '\u1100\u1161\u11a8', '\uac01', '\u1100\u1161\u11a8')]
for k, (a, c, d, kc, kd) in enumerate(V):
    t.append('(** normalization_test.cpp:545-585 *)\nExample norm_545_%d : NFC ~ %s => %s /\\ NFD ~ %s => %s /\\ NFKC ~ %s => %s /\\ NFKD ~ %s => %s.\nProof. vm_compute. repeat split; reflexivity. Qed.' %
             (k, N_(a), N_(c), N_(a), N_(d), N_(a), N_(kc), N_(a), N_(kd)))
files['Replay_Norm'] = ('M_Ucd M_Utf8 M_Convert M_Normalize M_NormUtf8 Norm_Demo Replay_Table', 'normalization_test.cpp (decomposition_type: C72)', t)

# ---------------------------------------------------------------------------------------------- case_mapping_test.cpp
t = ['''(** The UCD entries of the code points used. *)
Definition rcase : case_tables := {|
  s_upper := [(0xE0, 0xC0); (0xE9, 0xC9); (0x1C6, 0x1C4); (0x3B1, 0x391); (0x3C9, 0x3A9)];
  s_lower := [(0xC0, 0xE0); (0xC9, 0xE9); (0x1C4, 0x1C6); (0x391, 0x3B1); (0x3A9, 0x3C9)];
  s_title := [(0xE0, 0xC0); (0xE9, 0xC9); (0x1C4, 0x1C5); (0x1C5, 0x1C5); (0x1C6, 0x1C5); (0x3B1, 0x391); (0x3C9, 0x3A9)];
  s_fold := [(0xC0, 0xE0); (0xC9, 0xE9); (0x1C4, 0x1C6); (0x391, 0x3B1); (0x3A9, 0x3C9)];
  f_upper := [(0xDF, [0x53; 0x53])]; f_lower := [(0x130, [0x69; 0x307])]; f_title := [(0xDF, [0x53; 0x73])]; f_fold := [(0xDF, [0x73; 0x73])] |}%N.
Definition rgc (c : N) : gencat :=
  (if (0x41 <=? c) && (c <=? 0x5A) || (0xC0 <=? c) && (c <=? 0xDE) then Lu else if (0x61 <=? c) && (c <=? 0x7A) || (0xDF <=? c) && (c <=? 0xFF) then Ll else GCother)%N.''']
def ct(no, stmt, tag=''):
    t.append('(** case_mapping_test.cpp:%d *)\nExample case_%d%s : %s.\nProof. vm_compute. repeat split; reflexivity. Qed.' % (no, no, tag, stmt))
def cm(no, f, prs): ct(no, 'map (%s rcase) %s = %s' % (f, L_(''.join(x for x, _ in prs)), L_(''.join(y for _, y in prs))))
cm(21, 'simple_uppercase', [('a', 'A'), ('z', 'Z'), ('A', 'A'), ('0', '0'), ('\u00e0', '\u00c0'), ('\u00e9', '\u00c9'), ('\u03b1', '\u0391'), ('\u03c9', '\u03a9')])
cm(38, 'simple_lowercase', [('A', 'a'), ('Z', 'z'), ('a', 'a'), ('0', '0'), ('\u00c0', '\u00e0'), ('\u00c9', '\u00e9'), ('\u0391', '\u03b1'), ('\u03a9', '\u03c9')])
cm(55, 'simple_titlecase', [('a', 'A'), ('z', 'Z'), ('\u01c4', '\u01c5'), ('\u01c6', '\u01c5')])
cm(66, 'simple_casefold', [('A', 'a'), ('Z', 'z'), ('a', 'a'), ('\u0391', '\u03b1')])
ct(77, 'full_uppercase rcase 0xDF = Ok [0x53; 0x53]%N /\\ full_uppercase rcase 0x61 = Ok [0x41]%N')
ct(90, 'full_casefold rcase 0xDF = Ok [0x73; 0x73]%N')
used.update(map(ord, 'hello wrd-HELOWRD'))
def c8(no, f, prs): all_i('case_%d' % no, 'case_mapping_test.cpp:%d' % no, ' /\\ '.join('%s i %s = Ok %s' % (f, B(x.encode()), B(y.encode())) for x, y in prs))
c8(99, 'to_uppercase8 rcase', [('hello', 'HELLO'), ('Hello World', 'HELLO WORLD'), ('123', '123'), ('stra\u00dfe', 'STRASSE'), ('caf\u00e9', 'CAF\u00c9')])
c8(112, 'to_lowercase8 rcase', [('HELLO', 'hello'), ('Hello World', 'hello world'), ('123', '123'), ('CAF\u00c9', 'caf\u00e9')])
c8(122, 'to_titlecase8 rcase rt rgc', [('hello world', 'Hello World'), ('HELLO WORLD', 'Hello World'), ('hello-world', 'Hello-World')])
c8(129, 'casefold8 rcase', [('HELLO', 'hello'), ('Hello', 'hello'), ('STRASSE', 'strasse'), ('stra\u00dfe', 'strasse')])
all_i('case_139', 'case_mapping_test.cpp:139', ' /\\ '.join('casefold_compare8 rcase i %s %s = Ok (%d)' % (B(x.encode()), B(y.encode()), r) for x, y, r in
      [('hello', 'HELLO', 0), ('Hello', 'hello', 0), ('abc', 'abd', -1), ('abd', 'abc', 1), ('stra\u00dfe', 'STRASSE', 0)]))
all_i('case_150', 'case_mapping_test.cpp:150', ' /\\ '.join('casefold_equals8 rcase i %s %s = Ok %s' % (B(x.encode()), B(y.encode()), b(r)) for x, y, r in
      [('hello', 'HELLO', 1), ('Hello', 'hElLo', 1), ('hello', 'world', 0), ('stra\u00dfe', 'STRASSE', 1)]))
ct(160, 'map (is_cased rgc) [0x41; 0x61; 0xC0; 0x30; 0x20; 0x21]%N = [true; true; true; false; false; false]')
ct(170, 'map (changes_when_uppercased rcase) [0x61; 0x7A; 0x41; 0x30; 0xDF]%N = [Ok true; Ok true; Ok false; Ok false; Ok true]')
ct(181, 'map (changes_when_lowercased rcase) [0x41; 0x5A; 0x61; 0x30]%N = [Ok true; Ok true; Ok false; Ok false]')
files['Replay_Case'] = ('M_Ucd M_Utf8 M_Convert M_Word M_Case Replay_Table', 'case_mapping_test.cpp', t)

# ---------------------------------------------------------------------------------------------- write
tbl = sorted(c for c in used if not (entry(c) == '(0x%X, 0x%X, mkProps 1 GOther INone WOther false false false false false false false)' % (c, c)))
with open(os.path.join(out, 'Replay_Table.v'), 'w') as f:
    f.write('''(** The properties of the code points that the project's unit tests use (everything else is treated as a plain narrow character).
    Written by tools/gen_replay.py. *)
From Verif Require Import Base M_Ucd M_Convert Ucd_Demo.
Open Scope N_scope.
(*  lo hi  width gcb incb wb  extpic virama varbase emod emoji epres mc *)
Definition rt_table : list entry :=
  [ %s ].
Definition rt : ucd := table_get rt_table.
(** every implementation that the build can select (M_Convert.impl) *)
Definition impls : list impl := [NoSimd; StdSimd W128; StdSimd W256; StdSimd W512; X86 W128; X86 W256; X86 W512; Neon].
''' % ';\n    '.join(entry(c) for c in tbl))
for name, (imports, what, t) in files.items():
    with open(os.path.join(out, name + '.v'), 'w') as f:
        f.write('(** Assertions of %s, replayed on the model.  Written by tools/gen_replay.py.  These are tests of the model, not theorems. *)\nFrom Verif Require Import Base %s.\nRequire Import ZArith List.\nImport ListNotations.\nOpen Scope Z_scope.\n\n' % (what, imports))
        f.write('\n'.join(t) + '\n')
