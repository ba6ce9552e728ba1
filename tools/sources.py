import sys
R='/repo/src/'
formatters=[('ethiopic_source','ethiopic.rs',None),('hebrew_source','hebrew.rs',None),
 ('additive_source','additive.rs',(34,66)),('digital_source','digital.rs',(556,607)),
 ('enumerated_source','enumerated.rs',(26,43)),('chinese_source','chinese.rs',(1,526))]
adapters=[('one_based_source','digital.rs',(72,93)),('chain_source','digital.rs',(444,470)),
 ('restrict_source','digital.rs',(483,504)),('zeroless_source','digital.rs',(524,538)),
 ('digit_set_source','digital.rs',(540,554)),
 ('stem_source','digital.rs',(189,214)),
 ('branch_source','digital.rs',(223,248)),
 ('no_fallback_source','digital.rs',(614,628)),
 ('fixed_source','digital.rs',(638,640)),
 ('zero_based_source','digital.rs',(647,649)),
 ('is_empty_source','digital.rs',(655,657))]
tables=[('digital_tables_source','digital.rs',(134,426)),('hex_tables_source','digital.rs',(506,516)),
 ('additive_tables_source','additive.rs',(68,614)),('enumerated_tables_source','enumerated.rs',(66,81))]
def write(path,title,parts):
    out=f'''(** * {title}

    Coq string literals double the quotation mark; apart from that the texts
    are the lines named beside them. Regenerate with tools/sources.py. *)

From Coq Require Import String.

'''
    for name,f,rng in parts:
        L=open(R+f).read().split('\n')
        if rng: t='\n'.join(L[rng[0]-1:rng[1]])+'\n'; cite=f'src/{f}:{rng[0]}-{rng[1]}'
        else: t='\n'.join(L); cite=f'src/{f}:1-{len(L)-1}, the whole file'
        out+=f'(** {cite} *)\nDefinition {name} : string := "'+t.replace('"','""')+'"%string.\n\n'
    open(path,'w').write(out.rstrip('\n')+'\n')
write(sys.argv[1]+'/Sources.v','Sources: pieces of /repo/src, character by character',formatters)
write(sys.argv[1]+'/TableSources.v','TableSources: the tables of /repo/src, character by character',tables)
write(sys.argv[1]+'/AdapterSources.v','AdapterSources: digit collections of /repo/src, character by character',adapters)
