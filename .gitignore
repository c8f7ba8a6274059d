*.vo
*.vok
*.vos
*.glob
.*.aux
*.d
.lia.cache
.nia.cache
Makefile
Makefile.conf
.Makefile.d
CoqMakefile*
__pycache__/
