*.vo
*.vok
*.vos
*.glob
*.aux
.*.aux
*.d
.lia.cache
.nia.cache
.nra.cache
Makefile
Makefile.conf
.Makefile.d
__pycache__/
